(** Model of the function spaces of the solvers: get_functionspace,
    get_extruded_base_element, element_continuity and extend_function_to_3d of
    thetis/utility.py, create_function_spaces of thetis/solver2d.py (307-352) and
    thetis/solver.py (409-469), the spaces of the fields of FlowSolver (solver.py:472-600),
    assert_function_space of thetis/limiter.py, the checks of the classes of
    thetis/utility3d.py that copy between 2D and 3D fields, and where limiters are made and
    used.

    A function space is represented by its element.  What UFL does with a family name is
    modelled by [canon] and [legal] (external facts: UFL's aliases and degree ranges; the
    families that result are the ones the code compares with). *)
From Coq Require Import List String Bool Arith.
Import ListNotations.
Open Scope string_scope.
Open Scope list_scope.

Inductive cell := Triangle | Quad | Interval.
(** FiniteElement: canonical family, cell, degree, variant *)
Record base := mkBase { b_family : string; b_cell : cell; b_degree : nat; b_variant : string }.
Inductive elem :=
  | Fin (b : base)
  | TPE (h v : elem)                 (* TensorProductElement *)
  | HDivE (e : elem)                 (* HDivElement *)
  | VecE (e : elem) (dim : nat)      (* VectorElement: a MixedElement of copies *)
  | TenE (e : elem)                  (* TensorElement: a MixedElement of copies *)
  | MixE (es : list elem)            (* MixedElement *)
  | EnrE (es : list elem).           (* EnrichedElement *)

Definition mem (x : string) (l : list string) : bool := existsb (String.eqb x) l.

(** UFL: the family a name stands for on a cell *)
Definition canon (c : cell) (name : string) : option string :=
  if mem name ["DG"; "Discontinuous Lagrange"] then Some (match c with Quad => "DQ" | _ => "Discontinuous Lagrange" end)
  else if mem name ["CG"; "Lagrange"] then Some (match c with Quad => "Q" | _ => "Lagrange" end)
  else if String.eqb name "DQ" then match c with Quad => Some "DQ" | _ => None end
  else if String.eqb name "Q" then match c with Quad => Some "Q" | _ => None end
  else if mem name ["RTF"; "Raviart-Thomas"] then match c with Triangle => Some "Raviart-Thomas" | _ => None end
  else if String.eqb name "RTCF" then match c with Quad => Some "RTCF" | _ => None end
  else if mem name ["BDMF"; "Brezzi-Douglas-Marini"] then match c with Triangle => Some "Brezzi-Douglas-Marini" | _ => None end
  else if String.eqb name "BDMCF" then match c with Quad => Some "BDMCF" | _ => None end
  else if mem name ["R"; "Real"] then Some "Real"
  else None.
(** UFL: the degrees a family is defined for *)
Definition legal (family : string) (degree : nat) : bool :=
  if mem family ["Discontinuous Lagrange"; "DQ"] then true
  else if String.eqb family "Real" then Nat.eqb degree 0
  else Nat.ltb 0 degree.
(** ufl.FiniteElement(name, cell, degree, variant); None: UFL raises *)
Definition finite_element (name : string) (c : cell) (degree : nat) (variant : string) : option base :=
  match canon c name with
  | Some f => if legal f degree then Some (mkBase f c degree variant) else None
  | None => None
  end.

(** str.upper for the names that occur *)
Definition upper_ascii (c : Ascii.ascii) : Ascii.ascii :=
  let n := Ascii.nat_of_ascii c in
  if Nat.leb 97 n && Nat.leb n 122 then Ascii.ascii_of_nat (n - 32) else c.
Fixpoint upper (s : string) : string :=
  match s with EmptyString => EmptyString | String c r => String (upper_ascii c) (upper r) end.

(** utility.py:167-181 *)
Definition hdiv_families : list string :=
  ["RT"; "RTF"; "RTCF"; "RAVIART-THOMAS"; "BDM"; "BDMF"; "BDMCF"; "BREZZI-DOUGLAS-MARINI"].
Definition default_variant (h_family : string) : string :=
  if mem (upper h_family) hdiv_families
  then if mem h_family ["RTCF"; "BDMCF"] then "equispaced" else "integral"
  else "equispaced".

(** scalar, vector (with the number of components) or tensor *)
Inductive shape := Scalar | Vector (dim : nat) | Tensor.
Definition shaped (s : shape) (e : elem) : elem :=
  match s with Scalar => e | Vector d => VecE e d | Tensor => TenE e end.
(** get_functionspace on a 2D mesh with cells [c], utility.py:163-200; [variant]: the
    argument of that name *)
Definition space_2d (c : cell) (fam : string) (deg : nat) (variant : option string) (s : shape) : option elem :=
  match finite_element fam c deg (match variant with Some v => v | None => default_variant fam end) with
  | Some b => Some (shaped s (Fin b))
  | None => None
  end.
(** the same on an extruded mesh *)
Definition space_3d (c : cell) (hf : string) (hd : nat) (vf : string) (vd : nat) (s : shape) (hdiv : bool) : option elem :=
  match finite_element hf c hd (default_variant hf), finite_element vf Interval vd "equispaced" with
  | Some h, Some v =>
      let e := TPE (Fin h) (Fin v) in
      Some (shaped s (if hdiv then HDivE e else e))
  | _, _ => None
  end.

(** get_extruded_base_element, utility.py:203-218.  VectorElement and TensorElement are
    MixedElements; an empty list would be an IndexError (None). *)
Definition sub0 (es : list elem) : option elem := match es with e :: _ => Some e | [] => None end.
Definition unwrap_mixed (e : elem) : option elem :=
  match e with VecE e _ | TenE e => Some e | MixE es => sub0 es | _ => Some e end.
Definition base_element (e : elem) : option elem :=
  let e := match e with HDivE e => e | _ => e end in
  match unwrap_mixed e with
  | None => None
  | Some e =>
      let e := match e with VecE e _ => e | _ => e end in
      match e with EnrE es => sub0 es | _ => Some e end
  end.

(** UFL: family() of an element *)
Fixpoint family (e : elem) : string :=
  match e with
  | Fin b => b_family b
  | TPE _ _ => "TensorProductElement"
  | HDivE e => family e
  | VecE e _ | TenE e => family e
  | MixE _ => "Mixed"
  | EnrE _ => "EnrichedElement"
  end.

(** element_continuity, utility.py:226-262; None: KeyError or IndexError *)
Definition elem_types (f : string) : option string :=
  if mem f ["Discontinuous Lagrange"; "DQ"] then Some "dg"
  else if mem f ["Lagrange"; "Q"] then Some "cg"
  else if mem f ["Raviart-Thomas"; "RTCF"; "Brezzi-Douglas-Marini"; "BDMCF"] then Some "hdiv"
  else None.
Definition element_continuity (e : elem) : option (string * string) :=
  match base_element e with
  | None => None
  | Some b =>
      match e with
      | HDivE _ => Some ("hdiv", "hdiv")
      | _ =>
          match b with
          | TPE a v => match elem_types (family a), elem_types (family v) with
                       | Some h, Some w => Some (h, w)
                       | _, _ => None
                       end
          | _ => match elem_types (family b) with Some h => Some (h, h) | None => None end
          end
      end
  end.

(** UFL: degree() of an element on an extruded mesh (pairs) and on a 2D mesh *)
Fixpoint degree (e : elem) : nat :=
  match e with
  | Fin b => b_degree b
  | TPE h v => degree h
  | HDivE e => degree e
  | VecE e _ | TenE e => degree e
  | MixE es | EnrE es => fold_right Nat.max 0 (map degree es)
  end.
Fixpoint degree_v (e : elem) : nat :=
  match e with
  | Fin b => b_degree b
  | TPE h v => degree v
  | HDivE e => degree_v e
  | VecE e _ | TenE e => degree_v e
  | MixE es | EnrE es => fold_right Nat.max 0 (map degree_v es)
  end.

(* ------------------------------------------------------------------ *)
(** * create_function_spaces *)

(** element_family and tracer_element_family: Enum options *)
Inductive fam := DgDg | RtDg | BdmDg | DgCg.
Inductive tfam := TDg | TCg.

Inductive exn := ESphere | EFamily | EElement | EMissing (n : string) | ELimiter | EMatch | EHeight | EApply.
Definition spaces := list (string * elem).
Fixpoint find (n : string) (l : spaces) : option elem :=
  match l with [] => None | (m, e) :: r => if String.eqb m n then Some e else find n r end.
(** all of the spaces, or the exception of UFL *)
Fixpoint all_spaces (l : list (string * option elem)) : spaces + exn :=
  match l with
  | [] => inl []
  | (n, Some e) :: r => match all_spaces r with inl l => inl ((n, e) :: l) | inr x => inr x end
  | (_, None) :: _ => inr EElement
  end.

(** 'RT' + 'F' and so on: solver2d.py:331-335, solver.py:427-431; [cell] of the 2D mesh *)
Definition h_family (f : fam) (c : cell) : string :=
  match f, c with
  | BdmDg, Quad => "BDMCF" | BdmDg, _ => "BDMF"
  | _, Quad => "RTCF" | _, _ => "RTF"
  end.
Definition is_hdiv (f : fam) : bool := match f with RtDg | BdmDg => true | _ => false end.

(** FlowSolver2d.create_function_spaces, solver2d.py:307-352; [gdim]: geometric dimension
    of the mesh (components of a vector), [p]: polynomial_degree *)
Definition spaces2d (c : cell) (gdim : nat) (f : fam) (p : nat) (t : tfam) : spaces + exn :=
  if Nat.eqb gdim 3 && negb (is_hdiv f) then inr ESphere
  else
    let DG := match c with Triangle => "DG" | _ => "DQ" end in
    let sp := space_2d c in
    let uh :=
      match f with
      | RtDg | BdmDg => (sp (h_family f c) (p + 1) None Scalar, sp DG p None Scalar)
      | DgCg => (sp DG p None (Vector gdim), sp "CG" (p + 1) None Scalar)
      | DgDg => (sp DG p None (Vector gdim), sp DG p None Scalar)
      end in
    all_spaces
      [("P0_2d", sp DG 0 None Scalar); ("P1_2d", sp "CG" 1 None Scalar); ("P1v_2d", sp "CG" 1 None (Vector gdim));
       ("P1DG_2d", sp DG 1 None Scalar); ("P1DGv_2d", sp DG 1 None (Vector gdim));
       ("U_2d", fst uh); ("H_2d", snd uh);
       ("V_2d", match uh with (Some u, Some h) => Some (MixE [u; h]) | _ => None end);
       ("Q_2d", match t with TDg => sp "DG" 1 None Scalar | TCg => sp "CG" 1 None Scalar end)].

(** the space of the non-hydrostatic pressure, solver2d.py:443-447 *)
Definition q_space (c : cell) (p : nat) (q_degree : option nat) : option elem :=
  space_2d c "CG" (match q_degree with Some q => q | None => p end) None Scalar.

(** FlowSolver.create_function_spaces, solver.py:409-469; [c]: cell of the 2D mesh *)
Definition spaces3d (c : cell) (f : fam) (p : nat) (quad_pressure : bool) : spaces + exn :=
  let s3 := space_3d c in
  let s2 := space_2d c in
  let hf := h_family f c in
  match f with
  | DgCg => inr EFamily
  | _ =>
    let U := if is_hdiv f then s3 hf (p + 1) "DG" p Scalar true else s3 "DG" p "DG" p (Vector 3) false in
    let W := if is_hdiv f then s3 "DG" p "CG" (p + 1) Scalar true else s3 "DG" p "DG" p (Vector 3) false in
    let U2 := if is_hdiv f then s2 hf (p + 1) None Scalar else s2 "DG" p None (Vector 2) in
    let H2 := s2 "DG" p None Scalar in
    let P0 := s3 "DG" 0 "DG" 0 Scalar false in
    let P1DG_2d := s2 "DG" 1 None Scalar in
    all_spaces
      ([("P0", P0); ("P1", s3 "CG" 1 "CG" 1 Scalar false); ("P1v", s3 "CG" 1 "CG" 1 (Vector 3) false);
        ("P1DG", s3 "DG" 1 "DG" 1 Scalar false); ("P1DGv", s3 "DG" 1 "DG" 1 (Vector 3) false);
        ("U", U); ("W", W); ("U_2d", U2); ("Uint", U); ("H", s3 "DG" p "DG" p Scalar false); ("turb_space", P0);
        ("P1_2d", s2 "CG" 1 None Scalar); ("P1v_2d", s2 "CG" 1 None (Vector 2)); ("P1DG_2d", P1DG_2d);
        ("P1DGv_2d", s2 "DG" 1 None (Vector 2)); ("H_2d", H2);
        ("V_2d", match U2, H2 with Some u, Some h => Some (MixE [u; h]) | _, _ => None end)]
       ++ (if quad_pressure
           then let bh := s3 "DG" 2 "CG" 2 Scalar false in
                let b2 := s2 "DG" 2 None Scalar in
                let pv := s3 "DG" 2 "DG" 1 (Vector 2) false in
                [("P2DGxP2", bh); ("P2DG_2d", b2); ("H_bhead", bh); ("H_bhead_2d", b2)]
                ++ (if is_hdiv f then [("U_int_pg", U)] else [("P2DGxP1DGv", pv); ("U_int_pg", pv)])
           else let bh := s3 "DG" 1 "CG" 2 Scalar false in
                [("P1DGxP2", bh); ("H_bhead", bh); ("H_bhead_2d", P1DG_2d); ("U_int_pg", U)]))
  end.

(* ------------------------------------------------------------------ *)
(** * Fields of the 3D solver, limiters, copies between 2D and 3D *)

Record opts := mkOpts {
  o_cell : cell; o_fam : fam; o_degree : nat;
  o_ale : bool; o_salt : bool; o_temp : bool; o_baroc : bool;
  o_quad_pressure : bool; o_quad_density : bool; o_smag : bool; o_turb : bool; o_gls : bool;
  o_lim_tracers : bool; o_lim_velocity : bool;
  o_coord_dg : bool }.   (* the coordinates of the 2D mesh are discontinuous *)

(** coord_fs and coord_fs_2d, solver.py:484-490; FunctionSpace(mesh, 'DG', 1, vfamily='CG',
    vdegree=1) of Firedrake names no variant, written "" here *)
Definition coord_space (o : opts) (l : spaces) : option elem :=
  if o_coord_dg o
  then match finite_element "DG" (o_cell o) 1 "", finite_element "CG" Interval 1 "" with
       | Some h, Some v => Some (TPE (Fin h) (Fin v))
       | _, _ => None
       end
  else find "P1" l.
Definition coord_space_2d (o : opts) (l : spaces) : option elem :=
  if o_coord_dg o then find "P1DG_2d" l else find "P1_2d" l.

(** the fields and the names of the spaces they are created in, solver.py:493-600;
    fields in the coordinate space are listed under "" (always available) *)
Definition on (b : bool) {A} (l : list A) : list A := if b then l else [].
Definition field_spaces (o : opts) : list (string * string) :=
  [("solution_2d", "V_2d"); ("elev_domain_2d", "H_2d"); ("uv_3d", "U"); ("uv_dav_3d", "U");
   ("uv_dav_2d", "U_2d"); ("split_residual_2d", "U_2d"); ("w_3d", "W"); ("hcc_metric_3d", "P1DG")]
  ++ on (o_salt o) [("salt_3d", "H")] ++ on (o_temp o) [("temp_3d", "H")]
  ++ on (o_baroc o) ([("density_3d", if o_quad_density o then "P2DGxP2" else "H");
                      ("baroc_head_3d", "H_bhead"); ("int_pg_3d", "U_int_pg")])
  ++ [("v_elem_size_3d", "P1DG"); ("v_elem_size_2d", "P1DG_2d"); ("h_elem_size_3d", "P1");
      ("h_elem_size_2d", "P1_2d"); ("max_h_diff", "P1")]
  ++ on (o_smag o) [("smag_visc_3d", "P1")]
  ++ on (o_turb o) (on (o_gls o) [("tke_3d", "turb_space"); ("psi_3d", "turb_space"); ("eps_3d", "turb_space"); ("len_3d", "turb_space")]
                    ++ [("eddy_visc_3d", "turb_space"); ("eddy_diff_3d", "turb_space");
                        ("shear_freq_3d", "turb_space"); ("buoy_freq_3d", "turb_space")]).

Fixpoint make_fields (fs : list (string * string)) (l : spaces) : spaces + exn :=
  match fs with
  | [] => inl []
  | (n, s) :: r => match find s l with
                   | Some e => match make_fields r l with inl m => inl ((n, e) :: m) | inr x => inr x end
                   | None => inr (EMissing s)
                   end
  end.

(** assert_function_space with the arguments of VertexBasedP1DGLimiter,
    limiter.py:10-45, 65 *)
Definition limiter_accepts (e : elem) : bool :=
  let e := match e with VecE e _ => e | _ => e end in
  let ok := fun b => mem (family b) ["Discontinuous Lagrange"; "DQ"] && Nat.eqb (degree b) 1 in
  match e with
  | TPE a b => ok a && ok b
  | _ => ok e
  end.
(** the limiters of create_fields, solver.py:548-557: None is the value None of Python *)
Definition tracer_limiter (o : opts) (l : spaces) : option elem + exn :=
  if o_lim_tracers o && Nat.ltb 0 (o_degree o)
  then match find "H" l with
       | Some e => if limiter_accepts e then inl (Some e) else inr ELimiter
       | None => inr (EMissing "H")
       end
  else inl None.
Definition uv_limiter (o : opts) (l : spaces) : option elem + exn :=
  if o_lim_velocity o && Nat.ltb 0 (o_degree o) && match o_fam o with DgDg => true | _ => false end
  then match find "U" l with
       | Some e => if limiter_accepts e then inl (Some e) else inr ELimiter
       | None => inr (EMissing "U")
       end
  else inl None.
(** the limiter of FlowSolver2d.create_equations, solver2d.py:534-539; [used]: there are
    tracers or suspended sediment *)
Definition tracer_limiter_2d (used lim : bool) (p : nat) (l : spaces) : option elem + exn :=
  if used && lim && Nat.ltb 0 p
  then match find "Q_2d" l with
       | Some e => if limiter_accepts e then inl (Some e) else inr ELimiter
       | None => inr (EMissing "Q_2d")
       end
  else inl None.

Record solver := mkSolver { so_opts : opts; so_spaces : spaces; so_fields : spaces;
                            so_tlim : option elem; so_ulim : option elem }.
(** create_function_spaces and create_fields of the 3D solver *)
Definition create (o : opts) : solver + exn :=
  match spaces3d (o_cell o) (o_fam o) (o_degree o) (o_quad_pressure o) with
  | inr x => inr x
  | inl l =>
      match make_fields (field_spaces o) l, tracer_limiter o l, uv_limiter o l with
      | inr x, _, _ => inr x
      | _, inr x, _ => inr x
      | _, _, inr x => inr x
      | inl fs, inl t, inl u => inl (mkSolver o l fs t u)
      end
  end.

(** iterate: the options are reduced before the first step, solver.py:1241-1243; a step
    calls apply of a limiter whose option is set (coupled_timeintegrator.py:447-463,
    521-536, 663-681).  Result: the limiters applied in a step with options [use_t],
    [use_u], AttributeError when one of them is None. *)
Definition apply_limiters (s : solver) (use_t use_u : bool) : list elem + exn :=
  let tr := on (use_t && (o_salt (so_opts s) || o_temp (so_opts s))) [so_tlim s] in
  let uv := on use_u [so_ulim s] in
  let fix go l := match l with
                  | [] => inl []
                  | Some e :: r => match go r with inl m => inl (e :: m) | inr x => inr x end
                  | None :: _ => inr EApply
                  end in
  go (tr ++ uv).
Definition first_step (s : solver) (lim_t lim_u : bool) : list elem + exn :=
  let p := o_degree (so_opts s) in
  apply_limiters s (lim_t && Nat.ltb 0 p)
    (lim_u && Nat.ltb 0 p && match o_fam (so_opts s) with DgDg => true | _ => false end).

(** the checks of ExpandFunctionTo3d, SubFunctionExtractor and ALEMeshUpdater,
    utility3d.py:503-512, 627-636, 750-756; [height]: elem_height is given.  Some true:
    accepted with scaling by the element height *)
Definition check_copy (e2 e3 : elem) (height : bool) : bool + exn :=
  match base_element e3 with
  | Some (TPE h v) =>
      if String.eqb (family e2) (family h)
      then let hdiv := mem (family e2) ["Raviart-Thomas"; "RTCF"; "Brezzi-Douglas-Marini"; "BDMCF"] in
           if hdiv && negb height then inr EHeight else inl hdiv
      else inr EMatch
  | _ => inr EMatch
  end.
(** the copies of the 3D solver: 2D space, 3D space, whether a height is given.
    solver.py:821-828, 944; utility3d.py:743, 1153, 747-756 *)
Definition copies (o : opts) (l : spaces) : list (option elem * option elem * bool) :=
  [ (find "U_2d" l, find "U" l, true);
    (find "P1DG_2d" l, find "P1DG" l, false);
    (find "P1_2d" l, find "P1" l, false);
    (coord_space_2d o l, coord_space o l, false) ].

(** extend_function_to_3d, utility.py:496-518: the element of the extended function *)
Definition extended (c : cell) (e : elem) : option elem :=
  match e with
  | VecE _ _ => space_3d c (family e) (degree e) "R" 0 (Vector 2) false
  | _ => space_3d c (family e) (degree e) "R" 0 Scalar false
  end.

(** quadrature degrees: shallow water (of the mixed space) and 2D tracers,
    shallowwater_eq.py:225-226, tracer_eq_2d.py:72-73; 3D terms, momentum_eq.py:119-120,
    tracer_eq.py:68-69 *)
Definition quad_2d (e : elem) : nat := 2 * degree e + 1.
Definition quad_3d (e : elem) : nat * nat := (2 * degree e + 1, 2 * degree_v e + 1).
