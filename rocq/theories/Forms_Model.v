(** Weak forms of the 2D shallow water and tracer equations:
    /repo/thetis/shallowwater_eq.py:353-890 (terms), :232-296 (boundary
    functions) and /repo/thetis/tracer_eq_2d.py:78-445.

    A form is evaluated by quadrature: an integral is a weighted sum over
    finitely many points. [V], [F], [B] are the quadrature points of the cells,
    interior facets and boundary facets. A function is known by its values and
    gradients there, from both sides at interior facets; it need not be
    polynomial, so every element family and degree is covered. Meshes are flat
    2D (the spherical variant of the Coriolis term is not modelled). *)
From Coq Require Import Reals List String Bool.
Import ListNotations.
Open Scope R_scope.
Open Scope list_scope.

Section Forms.
Context {V F B : Type}.

(* ------------------------------------------------------------------ *)
(** * Quadrature *)

Record mesh := mk_mesh
  { m_cells : list V; m_wv : V -> R;               (* dx *)
    m_facets : list F; m_wf : F -> R;              (* dS *)
    m_nf : F -> R * R;                             (* normal('+') *)
    m_bnds : list B; m_wb : B -> R;                (* ds *)
    m_nb : B -> R * R;                             (* outward normal *)
    m_marker : B -> nat }.                         (* boundary id *)

Definition integral {X} (l : list X) (w g : X -> R) : R :=
  fold_right (fun x s => w x * g x + s) 0 l.

Definition dx (m : mesh) (g : V -> R) : R := integral (m_cells m) (m_wv m) g.
Definition dS (m : mesh) (g : F -> R) : R := integral (m_facets m) (m_wf m) g.
Definition ds (m : mesh) (g : B -> R) : R := integral (m_bnds m) (m_wb m) g.

(** FacetNormal on either side ([true] = '+', [false] = '-'). *)
Definition normal (m : mesh) (f : F) (side : bool) : R * R :=
  if side then m_nf m f else (- fst (m_nf m f), - snd (m_nf m f)).

Definition dot2 (a b : R * R) : R := fst a * fst b + snd a * snd b.

(** A scalar function: value and gradient at cell points, at both sides of
    interior facets and at the boundary. *)
Record sfield := mk_s
  { s_v : V -> R; s_gv : V -> R * R;
    s_f : F -> bool -> R; s_gf : F -> bool -> R * R;
    s_b : B -> R; s_gb : B -> R * R }.

(** A vector function. *)
Record vfield := mk_vf { v_x : sfield; v_y : sfield }.

Definition vv (u : vfield) (p : V) : R * R := (s_v (v_x u) p, s_v (v_y u) p).
Definition vf (u : vfield) (f : F) (s : bool) : R * R :=
  (s_f (v_x u) f s, s_f (v_y u) f s).
Definition vb (u : vfield) (b : B) : R * R := (s_b (v_x u) b, s_b (v_y u) b).

(** div(u) at a cell point. *)
Definition divv (u : vfield) (p : V) : R :=
  fst (s_gv (v_x u) p) + snd (s_gv (v_y u) p).

(** UFL avg and jump. *)
Definition avg (g : bool -> R) : R := 0.5 * (g true + g false).
Definition jump (g : bool -> R) : R := g true - g false.

(** jump(v, n) of a scalar (a vector) and of a vector (a scalar). *)
Definition jump_n (m : mesh) (q : sfield) (f : F) : R * R :=
  (s_f q f true * fst (normal m f true) + s_f q f false * fst (normal m f false),
   s_f q f true * snd (normal m f true) + s_f q f false * snd (normal m f false)).

Definition jump_vn (m : mesh) (u : vfield) (f : F) : R :=
  dot2 (vf u f true) (normal m f true) + dot2 (vf u f false) (normal m f false).

Definition avg_v (u : vfield) (f : F) : R * R :=
  (avg (s_f (v_x u) f), avg (s_f (v_y u) f)).

Definition unb (m : mesh) (u : vfield) (b : B) : R := dot2 (vb u b) (m_nb m b).

(* ------------------------------------------------------------------ *)
(** * Boundary conditions *)

(** A value in a boundary condition dictionary. *)
Inductive bvalue := BScalar (g : B -> R) | BVector (g : B -> R * R) | BNone.

Definition bdict := list (string * bvalue).

Fixpoint bget (k : string) (d : bdict) : option bvalue :=
  match d with
  | [] => None
  | (k', v) :: r => if String.eqb k' k then Some v else bget k r
  end.

(** Errors: an invalid key; a scalar where a vector is needed or conversely
    (rejected by the form language); the value None (TypeError, or NameError
    because the message at shallowwater_eq.py:268-270 names an undefined
    variable). *)
Inductive bnd_error := InvalidTag (k : string) | ShapeError | NoValue.

Definition open_tags : list string := ["elev"; "uv"; "un"; "flux"]%string.
Definition all_tags : list string := (open_tags ++ ["drag"%string])%list.

Definition mem (k : string) (l : list string) : bool := existsb (String.eqb k) l.

(** ShallowWaterTerm.impose_dynamic_bnd, shallowwater_eq.py:274-296. *)
Fixpoint scan_tags (d : bdict) : bool + bnd_error :=
  match d with
  | [] => inl false
  | (k, _) :: r =>
      if negb (mem k all_tags) then inr (InvalidTag k)
      else if mem k open_tags then inl true
      else scan_tags r
  end.

Definition impose_dynamic_bnd (funcs : option bdict) : bool + bnd_error :=
  match funcs with None => inl false | Some d => scan_tags d end.

(** External velocity of an open boundary. *)
Inductive uvext :=
| USym                          (* the interior velocity *)
| UGiven (g : B -> R * R)       (* 'uv' *)
| UNormal (g : B -> R)          (* 'un' times the normal *)
| UFlux (g : B -> R).           (* 'flux' / (depth * boundary length) * normal *)

Record extern := mk_ext
  { ex_eta : option (B -> R);   (* None: the interior elevation *)
    ex_uv : uvext;
    ex_un : option (B -> R) }.  (* funcs['un'], read by the viscosity term *)

Definition as_scalar (v : bvalue) : (B -> R) + bnd_error :=
  match v with BScalar g => inl g | BVector _ => inr ShapeError | BNone => inr NoValue end.
Definition as_vector (v : bvalue) : (B -> R * R) + bnd_error :=
  match v with BVector g => inl g | BScalar _ => inr ShapeError | BNone => inr NoValue end.

Definition bindb {X Y} (a : X + bnd_error) (k : X -> Y + bnd_error)
  : Y + bnd_error := match a with inl x => k x | inr e => inr e end.

(** ShallowWaterTerm.get_bnd_functions, shallowwater_eq.py:232-272: which
    external values an open boundary uses. None: no key present. *)
Definition get_bnd_functions (d : bdict) : option (extern + bnd_error) :=
  let un := match bget "un" d with
            | Some (BScalar g) => Some g
            | _ => None
            end in
  match bget "elev" d, bget "uv" d, bget "un" d, bget "flux" d with
  | Some e, Some u, _, _ =>
      Some (bindb (as_scalar e) (fun e =>
            bindb (as_vector u) (fun u => inl (mk_ext (Some e) (UGiven u) un))))
  | Some e, None, Some u, _ =>
      Some (bindb (as_scalar e) (fun e =>
            bindb (as_scalar u) (fun u => inl (mk_ext (Some e) (UNormal u) un))))
  | Some e, None, None, Some q =>
      Some (bindb (as_scalar e) (fun e =>
            bindb (as_scalar q) (fun q => inl (mk_ext (Some e) (UFlux q) un))))
  | Some e, None, None, None =>
      Some (bindb (as_scalar e) (fun e => inl (mk_ext (Some e) USym un)))
  | None, Some u, _, _ =>
      Some (bindb (as_vector u) (fun u => inl (mk_ext None (UGiven u) un)))
  | None, None, Some u, _ =>
      Some (bindb (as_scalar u) (fun u => inl (mk_ext None (UNormal u) un)))
  | None, None, None, Some q =>
      Some (bindb (as_scalar q) (fun q => inl (mk_ext None (UFlux q) un)))
  | None, None, None, None => None
  end.

(** TracerTerm.get_bnd_functions, tracer_eq_2d.py:78-115: note that 'flux' comes
    before 'un' here and that no key is checked. *)
Record tbnd := mk_tb
  { tb_value : option (B -> R); tb_uv : uvext; tb_elev : option (B -> R);
    tb_diff_flux : option (B -> R) }.

Definition opt_scalar (o : option bvalue) : option (B -> R) + bnd_error :=
  match o with
  | None => inl None
  | Some v => bindb (as_scalar v) (fun g => inl (Some g))
  end.

Definition tracer_bnd (factor : B -> R) (d : bdict) : tbnd + bnd_error :=
  bindb (opt_scalar (bget "elev" d)) (fun elev =>
  bindb (opt_scalar (bget "value" d)) (fun val =>
  bindb (opt_scalar (bget "diff_flux" d)) (fun df =>
  bindb (match bget "uv" d, bget "flux" d, bget "un" d with
         | Some u, _, _ =>
             bindb (as_vector u) (fun u =>
               inl (UGiven (fun b => (factor b * fst (u b), factor b * snd (u b)))))
         | None, Some q, _ =>
             bindb (as_scalar q) (fun q => inl (UFlux (fun b => factor b * q b)))
         | None, None, Some u => bindb (as_scalar u) (fun u => inl (UNormal u))
         | None, None, None => inl USym
         end) (fun uv => inl (mk_tb val uv elev df))))).

(** What one boundary contributes: closed, open with external values, or an
    exception. *)
Inductive rbnd := Closed | Open (e : extern).

Definition resolve (funcs : option bdict) : rbnd + bnd_error :=
  bindb (impose_dynamic_bnd funcs) (fun o =>
    match o, funcs with
    | true, Some d =>
        match get_bnd_functions d with
        | Some r => bindb r (fun e => inl (Open e))
        | None => inl Closed   (* not reached: see [C51_open_has_values] *)
        end
    | _, _ => inl Closed
    end).

(** Simplification: a vector-valued 'un' next to 'uv' is treated as absent.
    The terms loop over the boundary markers in increasing order and stop at
    the first exception. *)
Fixpoint resolve_all (markers : list nat) (bc : nat -> option bdict)
  : list (nat * rbnd) + (nat * bnd_error) :=
  match markers with
  | [] => inl []
  | k :: r =>
      match resolve (bc k) with
      | inr e => inr (k, e)
      | inl b => match resolve_all r bc with
                 | inr e => inr e
                 | inl l => inl ((k, b) :: l)
                 end
      end
  end.

(* ------------------------------------------------------------------ *)
(** * Shallow water terms *)

Record swe_env := mk_env
  { e_mesh : mesh;
    e_g : R; e_rho0 : R;
    e_depth : R -> R -> R;          (* DepthExpression.get_total_depth: bathymetry, elevation *)
    e_bath_v : V -> R; e_bath_f : F -> bool -> R; e_bath_b : B -> R;
    e_len : nat -> R;               (* boundary_len *)
    e_bnd : nat -> rbnd;            (* resolved boundary conditions *)
    e_drag_b : nat -> option (B -> R);  (* 'drag' of a boundary *)
    e_eta_dg : bool;                (* elevation space is discontinuous *)
    e_u_jump : bool;                (* velocity space is 'dg' or 'hdiv' *)
    (* options and fields *)
    e_nonlinear : bool;
    e_lax : option R;               (* Lax-Friedrichs velocity factor, if used *)
    e_nu : option (sfield);         (* viscosity_h *)
    e_grad_div : bool; e_grad_depth : bool;
    e_sigma_f : F -> bool -> R; e_sigma_b : B -> R;  (* SIPG penalty *)
    e_grad_h : V -> R * R;          (* grad(total_h) *)
    e_coriolis : option (V -> R);
    e_wind : option (V -> R * R);
    e_patm_grad : option (V -> R * R);
    e_quad : option (V -> R); e_manning : option (V -> R);
    e_nikuradse : option (V -> R); e_kappa : R; e_smoother : R;
    e_linear : option (V -> R);
    e_drag3d : option ((V -> R) * (V -> R * R));
    e_msource : option (V -> R * R); e_vsource : option (V -> R);
    (* tidal farms: quadrature of farm.dx, turbine_density and
       friction_coefficient(uv, depth) *)
    e_farms : list (list V * (V -> R) * (V -> R) * (R * R -> R -> R)) }.

Variable E : swe_env.
Notation M := (e_mesh E).
Notation g := (e_g E).

Definition hv (eta : sfield) (p : V) : R := e_depth E (e_bath_v E p) (s_v eta p).
Definition hf (eta : sfield) (f : F) (s : bool) : R :=
  e_depth E (e_bath_f E f s) (s_f eta f s).
Definition hb (eta : B -> R) (b : B) : R := e_depth E (e_bath_b E b) (eta b).

(** External elevation and velocity at a boundary point,
    shallowwater_eq.py:240-266. *)
Definition eta_ext (e : extern) (eta_in : B -> R) (b : B) : R :=
  match ex_eta e with Some h => h b | None => eta_in b end.

Definition uv_ext (e : extern) (eta_in : B -> R) (uv_in : B -> R * R) (b : B)
  : R * R :=
  let n := m_nb M b in
  match ex_uv e with
  | USym => uv_in b
  | UGiven u => u b
  | UNormal u => (u b * fst n, u b * snd n)
  | UFlux q =>
      let area := hb (eta_ext e eta_in) b * e_len E (m_marker M b) in
      (q b / area * fst n, q b / area * snd n)
  end.

Definition sub2 (a b : R * R) : R * R := (fst a - fst b, snd a - snd b).
Definition add2 (a b : R * R) : R * R := (fst a + fst b, snd a + snd b).
Definition scal2 (k : R) (a : R * R) : R * R := (k * fst a, k * snd a).

(** ExternalPressureGradientTerm.residual, shallowwater_eq.py:353-393. *)
Definition pressure_gradient (psi uv : vfield) (eta eta_old : sfield) : R :=
  if e_eta_dg E then
    - (- g * dx M (fun p => s_v eta p * divv psi p)
       + g * dS M (fun f =>
           (avg (s_f eta f) + sqrt (avg (hf eta_old f) / g) * jump_vn M uv f)
           * jump_vn M psi f)
       + g * ds M (fun b =>
           match e_bnd E (m_marker M b) with
           | Open e =>
               let un_jump :=
                 dot2 (sub2 (vb uv b) (uv_ext e (s_b eta) (vb uv) b)) (m_nb M b) in
               (0.5 * (s_b eta b + eta_ext e (s_b eta) b)
                + sqrt (hb (s_b eta_old) b / g) * un_jump) * unb M psi b
           | Closed =>
               (s_b eta b + sqrt (hb (s_b eta_old) b / g) * unb M uv b) * unb M psi b
           end))
  else
    - (g * dx M (fun p => dot2 (s_gv eta p) (vv psi p))
       + g * ds M (fun b =>
           match e_bnd E (m_marker M b) with
           | Open e =>
               let un_jump :=
                 dot2 (sub2 (vb uv b) (uv_ext e (s_b eta) (vb uv) b)) (m_nb M b) in
               (0.5 * (s_b eta b + eta_ext e (s_b eta) b)
                + sqrt (hb (s_b eta_old) b / g) * un_jump - s_b eta b) * unb M psi b
           | Closed => 0
           end)).

(** HUDivTerm.residual, shallowwater_eq.py:416-450. [div_hu] is div(H u) at a
    cell point, used when the velocity is continuous. *)
Definition hu_flux_b (uv : vfield) (eta : sfield) (uv_old : vfield)
  (eta_old : sfield) (e : extern) (b : B) : R :=
  let n := m_nb M b in
  let h := hb (s_b eta_old) b in
  let h_ext := hb (eta_ext e (s_b eta_old)) b in
  let h_av := 0.5 * (h + h_ext) in
  let eta_jump := s_b eta b - eta_ext e (s_b eta) b in
  let un_rie := 0.5 * dot2 (add2 (vb uv b) (uv_ext e (s_b eta) (vb uv) b)) n
                + sqrt (g / h_av) * eta_jump in
  let un_jump := dot2 (sub2 (vb uv_old b) (uv_ext e (s_b eta_old) (vb uv_old) b)) n in
  let eta_rie := 0.5 * (s_b eta_old b + eta_ext e (s_b eta_old) b)
                 + sqrt (h_av / g) * un_jump in
  e_depth E (e_bath_b E b) eta_rie * un_rie.

Definition hu_div (phi : sfield) (uv : vfield) (eta : sfield) (uv_old : vfield)
  (eta_old : sfield) (div_hu : V -> R) : R :=
  if e_u_jump E then
    - (- dx M (fun p => dot2 (s_gv phi p) (scal2 (hv eta_old p) (vv uv p)))
       + (if e_eta_dg E then
            dS M (fun f =>
              let h := avg (hf eta_old f) in
              let uv_rie := add2 (avg_v uv f) (scal2 (sqrt (g / h)) (jump_n M eta f)) in
              dot2 (jump_n M phi f) (scal2 h uv_rie))
          else 0)
       + ds M (fun b =>
           match e_bnd E (m_marker M b) with
           | Open e => hu_flux_b uv eta uv_old eta_old e b * s_b phi b
           | Closed => 0
           end))
  else
    - (dx M (fun p => div_hu p * s_v phi p)
       + ds M (fun b =>
           match e_bnd E (m_marker M b) with
           | Open e =>
               match ex_un e with
               | Some _ => - hb (s_b eta_old) b * unb M uv b * s_b phi b
               | None => 0
               end
           | Closed => - hb (s_b eta_old) b * unb M uv b * s_b phi b
           end)).

(** HorizontalAdvectionTerm.residual, shallowwater_eq.py:470-510. *)
Definition advection (psi uv : vfield) (eta : sfield) (uv_old : vfield)
  (eta_old : sfield) : R :=
  if e_nonlinear E then
    - (- dx M (fun p =>
           dot2 (vv uv p)
             (s_v (v_x psi) p * divv uv_old p + dot2 (vv uv_old p) (s_gv (v_x psi) p),
              s_v (v_y psi) p * divv uv_old p + dot2 (vv uv_old p) (s_gv (v_y psi) p)))
       + (if e_u_jump E then
            dS M (fun f =>
              let unp := dot2 (vf uv_old f true) (normal M f true) in
              let unm := dot2 (vf uv_old f false) (normal M f false) in
              dot2 (avg_v uv f)
                (add2 (scal2 unp (vf psi f true)) (scal2 unm (vf psi f false))))
            + match e_lax E with
              | None => 0
              | Some lf =>
                  dS M (fun f =>
                    0.5 * Rabs (dot2 (avg_v uv_old f) (normal M f false)) * lf
                    * (jump (s_f (v_x psi) f) * jump (s_f (v_x uv) f)
                       + jump (s_f (v_y psi) f) * jump (s_f (v_y uv) f)))
                  + ds M (fun b =>
                      match e_bnd E (m_marker M b) with
                      | Open _ => 0
                      | Closed =>
                          let n := m_nb M b in
                          let ue := sub2 (vb uv b) (scal2 (2 * unb M uv b) n) in
                          0.5 * Rabs (unb M uv_old b) * lf
                          * dot2 (vb psi b) (sub2 (vb uv b) ue)
                      end)
              end
          else 0)
       + ds M (fun b =>
           match e_bnd E (m_marker M b) with
           | Closed => 0
           | Open e =>
               let n := m_nb M b in
               let eta_jump := s_b eta_old b - eta_ext e (s_b eta_old) b in
               let un_rie :=
                 0.5 * dot2 (add2 (vb uv_old b)
                               (uv_ext e (s_b eta_old) (vb uv_old) b)) n
                 + sqrt (g / hb (s_b eta_old) b) * eta_jump in
               let uv_av := scal2 0.5 (add2 (uv_ext e (s_b eta) (vb uv) b) (vb uv b)) in
               un_rie * dot2 uv_av (vb psi b)
           end))
  else 0.

(** 2x2 tensors, row by row: grad(u)_ij = d_j u_i. *)
Definition tensor := ((R * R) * (R * R))%type.
Definition inner_t (a b : tensor) : R := dot2 (fst a) (fst b) + dot2 (snd a) (snd b).
Definition scal_t (k : R) (a : tensor) : tensor := (scal2 k (fst a), scal2 k (snd a)).
Definition add_t (a b : tensor) : tensor := (add2 (fst a) (fst b), add2 (snd a) (snd b)).
Definition outer (a b : R * R) : tensor := (scal2 (fst a) b, scal2 (snd a) b).
Definition sym_t (a : tensor) : tensor :=
  ((fst (fst a), 0.5 * (snd (fst a) + fst (snd a))),
   (0.5 * (snd (fst a) + fst (snd a)), snd (snd a))).
Definition grad_v (u : vfield) (p : V) : tensor := (s_gv (v_x u) p, s_gv (v_y u) p).
Definition grad_f (u : vfield) (f : F) (s : bool) : tensor :=
  (s_gf (v_x u) f s, s_gf (v_y u) f s).
Definition grad_b (u : vfield) (b : B) : tensor := (s_gb (v_x u) b, s_gb (v_y u) b).
Definition tensor_jump (u : vfield) (f : F) : tensor :=
  add_t (outer (vf u f true) (normal M f true)) (outer (vf u f false) (normal M f false)).
Definition avg_t (a : bool -> tensor) : tensor := scal_t 0.5 (add_t (a true) (a false)).

(** stress = nu*grad(uv) or nu*2*sym(grad(uv)), shallowwater_eq.py:564-569. *)
Definition stress_of (nu : R) (gr : tensor) : tensor :=
  if e_grad_div E then scal_t (nu * 2) (sym_t gr) else scal_t nu gr.

(** HorizontalViscosityTerm.residual, shallowwater_eq.py:554-616. *)
Definition delta_uv (uv : vfield) (eta : sfield) (e : extern) (b : B)
  : option (R * R) :=
  match ex_un e with
  | Some un => Some (scal2 (unb M uv b - un b) (m_nb M b))
  | None =>
      match ex_uv e with
      | USym => None
      | _ => Some (sub2 (vb uv b) (uv_ext e (s_b eta) (vb uv) b))
      end
  end.

Definition sigma_max (f : F) : R :=
  let sp := e_sigma_f E f true in
  let sm := e_sigma_f E f false in
  if Rgt_dec sp sm then sp else sm.

Definition vec_t (a : R * R) (t : tensor) : R * R :=
  (fst a * fst (fst t) + snd a * fst (snd t), fst a * snd (fst t) + snd a * snd (snd t)).

Definition viscosity (psi uv : vfield) (eta eta_old : sfield) : R :=
  match e_nu E with
  | None => 0
  | Some nu =>
      - (dx M (fun p => inner_t (grad_v psi p) (stress_of (s_v nu p) (grad_v uv p)))
         + (if e_u_jump E then
              dS M (fun f =>
                let sj := stress_of (avg (s_f nu f)) (tensor_jump uv f) in
                sigma_max f * inner_t (tensor_jump psi f) sj
                - inner_t (avg_t (grad_f psi f)) sj
                - inner_t (tensor_jump psi f)
                    (avg_t (fun s => stress_of (s_f nu f s) (grad_f uv f s))))
              + ds M (fun b =>
                  match e_bnd E (m_marker M b) with
                  | Closed => 0
                  | Open e =>
                      match delta_uv uv eta e b with
                      | None => 0
                      | Some d =>
                          let n := m_nb M b in
                          let sj := stress_of (s_b nu b) (outer d n) in
                          e_sigma_b E b * inner_t (outer (vb psi b) n) sj
                          - inner_t (grad_b psi b) sj
                          - inner_t (outer (vb psi b) n)
                              (stress_of (s_b nu b) (grad_b uv b))
                      end
                  end)
            else 0)
         + (if e_grad_depth E then
              dx M (fun p =>
                - dot2 (vv psi p)
                    (vec_t (scal2 (/ hv eta_old p) (e_grad_h E p))
                       (stress_of (s_v nu p) (grad_v uv p))))
            else 0))
  end.

(** CoriolisTerm.residual (flat mesh), shallowwater_eq.py:623-634. *)
Definition coriolis (psi uv : vfield) : R :=
  match e_coriolis E with
  | None => 0
  | Some c =>
      - dx M (fun p => c p * (- snd (vv uv p) * fst (vv psi p)
                              + fst (vv uv p) * snd (vv psi p)))
  end.

(** WindStressTerm.residual, shallowwater_eq.py:643-649. *)
Definition wind (psi : vfield) (eta_old : sfield) : R :=
  match e_wind E with
  | None => 0
  | Some t => dx M (fun p => dot2 (t p) (vv psi p) / hv eta_old p / e_rho0 E)
  end.

(** AtmosphericPressureTerm.residual, shallowwater_eq.py:658-663. *)
Definition atmospheric (psi : vfield) : R :=
  match e_patm_grad E with
  | None => 0
  | Some gp => - dx M (fun p => dot2 (gp p) (vv psi p) / e_rho0 E)
  end.

(** QuadraticDragTerm.residual, shallowwater_eq.py:679-701. None: one of the
    exceptions about two drag parameters. *)
Definition drag_coefficient (eta_old : sfield) : option (option (V -> R)) :=
  let cd1 :=
    match e_manning E with
    | Some mu =>
        match e_quad E with
        | Some _ => None
        | None => Some (Some (fun p => g * (mu p * mu p) / Rpower (hv eta_old p) (1 / 3)))
        end
    | None => Some (e_quad E)
    end in
  match cd1 with
  | None => None
  | Some cd =>
      match e_nikuradse E with
      | None => Some cd
      | Some ks =>
          match e_manning E, cd with
          | Some _, _ => None
          | None, Some _ => None
          | None, None =>
              Some (Some (fun p =>
                if Rgt_dec (hv eta_old p) (ks p)
                then 2 * (e_kappa E * e_kappa E)
                     / (ln (11.036 * hv eta_old p / ks p) * ln (11.036 * hv eta_old p / ks p))
                else 0))
          end
      end
  end.

Definition quadratic_drag (psi uv uv_old : vfield) (eta_old : sfield) : option R :=
  match drag_coefficient eta_old with
  | None => None
  | Some None => Some 0
  | Some (Some cd) =>
      Some (- dx M (fun p =>
        cd p * sqrt (dot2 (vv uv_old p) (vv uv_old p) + e_smoother E * e_smoother E)
        * dot2 (vv psi p) (vv uv p) / hv eta_old p))
  end.

(** BoundaryDragTerm.residual, shallowwater_eq.py:712-725. *)
Definition boundary_drag (psi uv uv_old : vfield) : R :=
  - ds M (fun b =>
      match e_drag_b E (m_marker M b) with
      | None => 0
      | Some cd =>
          let n := m_nb M b in
          let ut := sub2 (vb uv b) (scal2 (unb M uv b) n) in
          let ut_old := sub2 (vb uv_old b) (scal2 (unb M uv_old b) n) in
          cd b * sqrt (dot2 ut_old ut_old) * dot2 (vb psi b) ut
      end).

(** LinearDragTerm.residual, shallowwater_eq.py:734-740. *)
Definition linear_drag (psi uv : vfield) : R :=
  match e_linear E with
  | None => 0
  | Some c => - dx M (fun p => c p * dot2 (vv psi p) (vv uv p))
  end.

(** BottomDrag3DTerm.residual, shallowwater_eq.py:752-762. *)
Definition bottom_drag_3d (psi : vfield) (eta_old : sfield) : R :=
  match e_drag3d E with
  | None => 0
  | Some (cd, ub) =>
      - dx M (fun p => dot2 (scal2 (cd p * sqrt (dot2 (ub p) (ub p)) / hv eta_old p) (ub p))
                         (vv psi p))
  end.

(** TurbineDragTerm.residual, shallowwater_eq.py:783-791. *)
Definition turbine_drag (psi uv uv_old : vfield) (eta_old : sfield) : R :=
  - fold_right (fun farm s =>
      match farm with
      | (pts, w, density, ct) =>
          integral pts w (fun p =>
            ct (vv uv_old p) (hv eta_old p) * density p
            * sqrt (dot2 (vv uv_old p) (vv uv_old p))
            * dot2 (vv psi p) (vv uv p) / hv eta_old p) + s
      end) 0 (e_farms E).

(** MomentumSourceTerm.residual, shallowwater_eq.py:805-811. *)
Definition momentum_source (psi : vfield) : R :=
  match e_msource E with
  | None => 0
  | Some t => dx M (fun p => dot2 (t p) (vv psi p))
  end.

(** ContinuitySourceTerm.residual, shallowwater_eq.py:825-831. *)
Definition continuity_source (phi : sfield) : R :=
  match e_vsource E with
  | None => 0
  | Some s => dx M (fun p => s p * s_v phi p)
  end.

(** The momentum equation: BaseShallowWaterEquation.
    add_momentum_terms and residual_uv_eta, shallowwater_eq.py:868-890. *)
Definition momentum_residual (psi uv : vfield) (eta : sfield) (uv_old : vfield)
  (eta_old : sfield) : option R :=
  match quadratic_drag psi uv uv_old eta_old with
  | None => None
  | Some qd =>
      Some (pressure_gradient psi uv eta eta_old
            + advection psi uv eta uv_old eta_old
            + viscosity psi uv eta eta_old
            + coriolis psi uv
            + wind psi eta_old
            + atmospheric psi
            + qd
            + linear_drag psi uv
            + boundary_drag psi uv uv_old
            + bottom_drag_3d psi eta_old
            + momentum_source psi
            + turbine_drag psi uv uv_old eta_old)
  end.

(** ModeSplit2DEquations.add_momentum_terms, shallowwater_eq.py:954-958. *)
Definition split_momentum_residual (psi uv : vfield) (eta eta_old : sfield) : R :=
  pressure_gradient psi uv eta eta_old + coriolis psi uv + momentum_source psi
  + atmospheric psi.

(** add_continuity_terms, shallowwater_eq.py:882-884. *)
Definition continuity_residual (phi : sfield) (uv : vfield) (eta : sfield)
  (uv_old : vfield) (eta_old : sfield) (div_hu : V -> R) : R :=
  hu_div phi uv eta uv_old eta_old div_hu + continuity_source phi.

(* ------------------------------------------------------------------ *)
(** * 2D tracer terms *)

Record tracer_env := mk_tenv
  { t_dg : bool;                       (* horizontal_dg *)
    t_lax : option (R * (F -> R));     (* Lax-Friedrichs factor and the speed
                                          used for it: |u_n|, |u_n| of uv_p1 or
                                          the mean of uv_mag *)
    t_bnd : nat -> option tbnd;        (* bnd_conditions.get(marker) *)
    t_mu : option sfield;              (* diffusivity_h *)
    t_sigma_f : F -> bool -> R;
    t_source : option (V -> R);
    t_sign0 : R }.                     (* sign(0) *)

Variable T : tracer_env.

Definition sign (x : R) : R :=
  if Rlt_dec 0 x then 1 else if Rlt_dec x 0 then -1 else t_sign0 T.

(** get_bnd_functions, tracer_eq_2d.py:78-115. *)
Definition c_ext (tb : tbnd) (c_in : R) (b : B) : R :=
  match tb_value tb with Some v => v b | None => c_in end.

Definition tuv_ext (tb : tbnd) (elev : B -> R) (uv_in : B -> R * R) (b : B) : R * R :=
  uv_ext (mk_ext (tb_elev tb) (tb_uv tb) None) elev uv_in b.

(** un_av on an interior facet and the upwind switch, tracer_eq_2d.py:162-168. *)
Definition un_av (uv : vfield) (f : F) : R := dot2 (avg_v uv f) (normal M f false).
Definition up_s (un : R) : R := 0.5 * (sign un + 1).

(** HorizontalAdvectionTerm.residual, tracer_eq_2d.py:147-193. *)
Definition tracer_advection (phi c : sfield) (uv : vfield) (elev : sfield) : R :=
  - (- dx M (fun p => (s_v phi p * divv uv p + dot2 (vv uv p) (s_gv phi p)) * s_v c p)
     + (if t_dg T then
          dS M (fun f =>
            let s := up_s (un_av uv f) in
            let c_up := s_f c f false * s + s_f c f true * (1 - s) in
            c_up * (s_f phi f true * dot2 (vf uv f true) (normal M f true)
                    + s_f phi f false * dot2 (vf uv f false) (normal M f false)))
          + match t_lax T with
            | None => 0
            | Some (lf, speed) =>
                dS M (fun f => 0.5 * speed f * lf * (jump (s_f phi f) * jump (s_f c f)))
            end
        else 0)
     + ds M (fun b =>
         match t_bnd T (m_marker M b) with
         | None => s_b c b * unb M uv b * s_b phi b
         | Some tb =>
             let uv_av := scal2 0.5 (add2 (vb uv b) (tuv_ext tb (s_b elev) (vb uv) b)) in
             let un := dot2 uv_av (m_nb M b) in
             let s := up_s un in
             (s_b c b * s + c_ext tb (s_b c b) b * (1 - s)) * un * s_b phi b
         end)).

(** ConservativeHorizontalAdvectionTerm.residual, tracer_eq_2d.py:341-395
    (bnd_conditions given). *)
Definition cons_advection (phi c : sfield) (uv : vfield) (elev : sfield) : R :=
  - (- dx M (fun p => dot2 (s_gv phi p) (vv uv p) * s_v c p)
     + (if t_dg T then
          dS M (fun f =>
            let s := up_s (un_av uv f) in
            let flux := add2 (scal2 (s_f c f false * s) (vf uv f false))
                             (scal2 (s_f c f true * (1 - s)) (vf uv f true)) in
            dot2 flux (jump_n M phi f))
          + match t_lax T with
            | None => 0
            | Some (lf, speed) =>
                dS M (fun f => 0.5 * speed f * lf * (jump (s_f phi f) * jump (s_f c f)))
            end
        else 0)
     + ds M (fun b =>
         match t_bnd T (m_marker M b) with
         | None => s_b c b * unb M uv b * s_b phi b
         | Some tb =>
             let ue := tuv_ext tb (s_b elev) (vb uv) b in
             let un := dot2 (scal2 0.5 (add2 (vb uv b) ue)) (m_nb M b) in
             let s := up_s un in
             let flux := add2 (scal2 (s_b c b * s) (vb uv b))
                              (scal2 (c_ext tb (s_b c b) b * (1 - s)) ue) in
             dot2 flux (m_nb M b) * s_b phi b
         end)).

(** HorizontalDiffusionTerm.residual, tracer_eq_2d.py:226-278. The gradient of
    the boundary value [c_up] is that of the interior value where the flow goes
    out; where it comes in, the gradient of the given external value is a
    parameter [gext]. *)
Definition tracer_diffusion (phi c : sfield) (uv : vfield) (elev : sfield)
  (gext : B -> R * R) : R :=
  match t_mu T with
  | None => 0
  | Some mu =>
      - (dx M (fun p => dot2 (s_gv phi p) (scal2 (s_v mu p) (s_gv c p)))
         + (if t_dg T then
              dS M (fun f =>
                let sp := t_sigma_f T f true in
                let sm := t_sigma_f T f false in
                let smax := if Rgt_dec sp sm then sp else sm in
                let av q := scal2 0.5 (add2 (scal2 (s_f mu f true) (s_gf q f true))
                                            (scal2 (s_f mu f false) (s_gf q f false))) in
                smax * dot2 (jump_n M phi f) (scal2 (avg (s_f mu f)) (jump_n M c f))
                - dot2 (av phi) (jump_n M c f)
                - dot2 (jump_n M phi f) (av c))
            else 0)
         + ds M (fun b =>
             match t_bnd T (m_marker M b) with
             | None => 0
             | Some tb =>
                 match tb_diff_flux tb with
                 | Some q => - (s_b phi b * q b)
                 | None =>
                     let ue := tuv_ext tb (s_b elev) (vb uv) b in
                     let un := dot2 (scal2 0.5 (add2 (vb uv b) ue)) (m_nb M b) in
                     let s := up_s un in
                     let g_ext := match tb_value tb with
                                  | Some _ => gext b
                                  | None => s_gb c b
                                  end in
                     let gup := add2 (scal2 s (s_gb c b)) (scal2 (1 - s) g_ext) in
                     - (s_b phi b * dot2 (scal2 (s_b mu b) gup) (m_nb M b))
                 end
             end))
  end.

(** SourceTerm / ConservativeSourceTerm.residual, tracer_eq_2d.py:293-298 and
    :439-445. *)
Definition tracer_source (phi : sfield) : R :=
  match t_source T with
  | None => 0
  | Some s => - - dx M (fun p => s p * s_v phi p)
  end.

Definition cons_source (phi : sfield) (elev : sfield) : R :=
  match t_source T with
  | None => 0
  | Some s => - - dx M (fun p => hv elev p * s p * s_v phi p)
  end.
End Forms.

Arguments mesh : clear implicits.
Arguments sfield : clear implicits.
Arguments vfield : clear implicits.
Arguments swe_env : clear implicits.
Arguments tracer_env : clear implicits.
