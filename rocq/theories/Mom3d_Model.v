(** Model of the 3D momentum equation, thetis/momentum_eq.py: its terms as quadrature sums
    over the points of an extruded mesh (see Forms3d_Model.v), the resolution of boundary
    dictionaries and the internal pressure gradient calculator.

    Simplification: fields are given by their values and gradients at the quadrature
    points; the third component of the (vector valued) velocity is carried along and is
    zero in the program. *)
From Coq Require Import Reals List Bool String.
From Verif Require Import Forms_Model Forms3d_Model.
Import ListNotations.
Open Scope R_scope.

Section Mom3d.
Context {V F E : Type}.

(** Result of looking at one boundary dictionary, momentum_eq.py:224-246 (the order of the
    tests is that of the code). *)
Inductive mbnd := MSymm | MUv (g : E -> v3) | MUn (g : E -> R).
Inductive merr := MUnsupported | MShape.
(** [flux_to_un q] is funcs['flux'] / total_h / sect_len, line 244. *)
Definition get_mbnd (flux_to_un : (E -> R) -> E -> R) (d : bdict3 (E:=E)) : mbnd + merr :=
  match bget3 "symm" d with
  | Some _ => inl MSymm
  | None =>
      match bget3 "uv" d with
      | Some (BV3 g) => inl (MUv g)
      | Some (BS3 _) => inr MShape
      | None =>
          match bget3 "un" d with
          | Some (BS3 g) => inl (MUn g)
          | Some (BV3 _) => inr MShape
          | None =>
              match bget3 "flux" d with
              | Some (BS3 q) => inl (MUn (flux_to_un q))
              | Some (BV3 _) => inr MShape
              | None => inr MUnsupported          (* raise Exception, line 248 *)
              end
          end
      end
  end.

(** Fields and options of the equation, MomentumTerm.__init__ and the keys of fields_old. *)
Record menv3 := mk_menv3
  { m_nonlin : bool; m_hdg : bool; m_vdg : bool;
    m_lax : option R;
    m_dav : option (vfield3 V F E);
    m_w : option (sfield3 V F E); m_wmesh : option (sfield3 V F E);
    m_muh : option (sfield3 V F E); m_muv : option (sfield3 V F E);
    m_sigh : F -> bool -> R; m_sigv : F -> bool -> R; m_sipgh : R; m_sipgv : R;
    m_friction : bool;                       (* use_bottom_friction *)
    m_quad : option (E -> R);                (* 'quadratic_drag_coefficient' *)
    m_z0 : option (E -> R);                  (* 'bottom_roughness' *)
    m_velem : option (E -> R);               (* v_elem_size *)
    m_kappa : R;
    m_linear : option (V -> R);              (* 'linear_drag_coefficient' *)
    m_coriolis : option (V -> R);
    m_wind : option (E -> v3); m_rho0 : R;
    m_source : option (V -> v3);
    m_intpg : option (V -> v3);
    m_bnd : nat -> option mbnd;
    m_sign0 : R }.

Variable M : mesh3 V F E.
Variable K : menv3.

Definition msgn (x : R) : R :=
  if Rlt_dec 0 x then 1 else if Rlt_dec x 0 then -1 else m_sign0 K.
Definition mupw (x : R) : R := 0.5 * (msgn x + 1).

(** solution + uv_depth_av, momentum_eq.py:181-187 and the same lines of other terms *)
Definition plus_dav (u : vfield3 V F E) : vfield3 V F E :=
  match m_dav K with None => u | Some d => add_v u d end.

(** PressureGradientTerm.residual, momentum_eq.py:152-159. *)
Definition m_pressure (psi : vfield3 V F E) : R :=
  match m_intpg K with
  | None => 0
  | Some g => - dx3 M (fun p => c0 (g p) * a_v (w_x psi) p + c1 (g p) * a_v (w_y psi) p)
  end.

(** External velocity at an open boundary, momentum_eq.py:224-247. *)
Definition m_ext (b : mbnd) (uv_in : v3) (e : E) : v3 :=
  match b with
  | MSymm => uv_in
  | MUv g => g e
  | MUn g => scal3 (g e) (g_ne M e)
  end.

(** Lateral boundaries, momentum_eq.py:210-265. *)
Definition m_lat (psi uv : vfield3 V F E) (e : E) : R :=
  let n := g_ne M e in
  let u := val_e uv e in
  let t0 := a_e (w_x psi) e in
  let t1 := a_e (w_y psi) e in
  match m_bnd K (g_marker M e) with
  | None =>
      let un := dot3 u n in
      let ext := sub3 u (scal3 (2 * un) n) in
      match m_lax K with
      | None => 0
      | Some lf => 0.5 * Rabs un * lf * (t0 * (c0 u - c0 ext) + t1 * (c1 u - c1 ext))
      end
  | Some b =>
      let ext := m_ext b u e in
      let av := scal3 0.5 (add3 u ext) in
      let un_av := c0 av * c0 n + c1 av * c1 n in
      let s := mupw un_av in
      let d := sub3 ext u in
      (c0 u * t0 * c0 n * c0 u + c0 u * t0 * c1 n * c1 u
       + c1 u * t1 * c0 n * c0 u + c1 u * t1 * c1 n * c1 u)
      + (1 - s) * (c0 d * t0 * c0 n * c0 av + c0 d * t0 * c1 n * c1 av
                   + c1 d * t1 * c0 n * c0 av + c1 d * t1 * c1 n * c1 av)
  end.

(** HorizontalAdvectionTerm.residual, momentum_eq.py:176-272. *)
Definition m_hadv (psi u u_old : vfield3 V F E) : R :=
  if m_nonlin K then
    let uv := plus_dav u in
    let uvo := plus_dav u_old in
    let t0 := w_x psi in
    let t1 := w_y psi in
    let un f := c0 (avg3 uvo f) * c0 (nrm M f false) + c1 (avg3 uvo f) * c1 (nrm M f false) in
    let up (q : sfield3 V F E) f := a_f q f false * mupw (un f) + a_f q f true * (1 - mupw (un f)) in
    let flux f :=
      up (w_x uv) f * c0 (avg3 uvo f) * c0 (jump3 M t0 f)
      + up (w_x uv) f * c1 (avg3 uvo f) * c1 (jump3 M t0 f)
      + up (w_y uv) f * c0 (avg3 uvo f) * c0 (jump3 M t1 f)
      + up (w_y uv) f * c1 (avg3 uvo f) * c1 (jump3 M t1 f) in
    - (- dx3 M (fun p => c0 (a_gv t0 p) * a_v (w_x uv) p * a_v (w_x uvo) p
                       + c1 (a_gv t0 p) * a_v (w_x uv) p * a_v (w_y uvo) p
                       + c0 (a_gv t1 p) * a_v (w_y uv) p * a_v (w_x uvo) p
                       + c1 (a_gv t1 p) * a_v (w_y uv) p * a_v (w_y uvo) p)
       + (if m_hdg K then
            dS_v M flux + dS_h M flux
            + match m_lax K with
              | None => 0
              | Some lf =>
                  let lax f := 0.5 * Rabs (un f) * lf * (jump (a_f t0 f) * jump (a_f (w_x uv) f)
                                                         + jump (a_f t1 f) * jump (a_f (w_y uv) f)) in
                  dS_v M lax + dS_h M lax
              end
            + ds_lat M (m_lat psi uv)
          else 0)
       + ds_surf M (fun e => a_e (w_x uvo) e * a_e (w_x uv) e * a_e t0 e * c0 (g_ne M e)
                           + a_e (w_x uvo) e * a_e (w_y uv) e * a_e t0 e * c1 (g_ne M e)
                           + a_e (w_y uvo) e * a_e (w_x uv) e * a_e t1 e * c0 (g_ne M e)
                           + a_e (w_y uvo) e * a_e (w_y uv) e * a_e t1 e * c1 (g_ne M e)))
  else 0.

(** vertvelo, momentum_eq.py:300-302 *)
Definition m_vert : option (sfield3 V F E) :=
  match m_w K, m_wmesh K with
  | None, _ => None
  | Some w, None => Some w
  | Some w, Some wm => Some (sub_s w wm)
  end.

(** VerticalAdvectionTerm.residual, momentum_eq.py:286-321. *)
Definition m_vadv (psi u : vfield3 V F E) : R :=
  match m_vert with
  | None => 0
  | Some w =>
      if m_nonlin K then
        let uv := plus_dav u in
        let t0 := w_x psi in
        let t1 := w_y psi in
        let w_av f := avg (a_f w f) in
        let up (q : sfield3 V F E) f := a_f q f false * mupw (w_av f * c2 (nrm M f false))
                                        + a_f q f true * (1 - mupw (w_av f * c2 (nrm M f false))) in
        - (- dx3 M (fun p => c2 (a_gv t0 p) * a_v (w_x uv) p * a_v w p + c2 (a_gv t1 p) * a_v (w_y uv) p * a_v w p)
           + (if m_vdg K then
                dS_h M (fun f => up (w_x uv) f * w_av f * c2 (jump3 M t0 f) + up (w_y uv) f * w_av f * c2 (jump3 M t1 f))
                + match m_lax K with
                  | None => 0
                  | Some lf => dS_h M (fun f => 0.5 * Rabs (w_av f * c2 (nrm M f false)) * lf
                      * (jump (a_f t0 f) * jump (a_f (w_x uv) f) + jump (a_f t1 f) * jump (a_f (w_y uv) f)))
                  end
              else 0)
           + ds_surf M (fun e => a_e (w_x uv) e * a_e w e * a_e t0 e * c2 (g_ne M e)
                               + a_e (w_y uv) e * a_e w e * a_e t1 e * c2 (g_ne M e)))
      else 0
  end.

(** HorizontalViscosityTerm.residual, momentum_eq.py:346-392. The tensors of the facet
    terms are n x u (direction, component): [tj q] is column q of tensor_jump(normal, u),
    [av q] column q of avg(dot(visc_tensor, nabla_grad(u))). *)
Definition m_hvisc (psi u : vfield3 V F E) : R :=
  match m_muh K with
  | None => 0
  | Some mu =>
      let uv := plus_dav u in
      let cols (h : sfield3 V F E -> sfield3 V F E -> R) := h (w_x psi) (w_x uv) + h (w_y psi) (w_y uv) in
      let all (h : sfield3 V F E -> sfield3 V F E -> R) := cols h + h (w_z psi) (w_z uv) in
      let interior f :=
        let smax := m_sipgh K * (if Rgt_dec (m_sigh K f true) (m_sigh K f false) then m_sigh K f true else m_sigh K f false) in
        let av q := scal3 0.5 (add3 (hflux (a_f mu f true) (a_gf q f true)) (hflux (a_f mu f false) (a_gf q f false))) in
        smax * all (fun t q => dot3 (jump3 M t f) (hflux (avg (a_f mu f)) (jump3 M q f)))
        - all (fun t q => dot3 (av t) (jump3 M q f))
        - all (fun t q => dot3 (jump3 M t f) (av q)) in
      let bnd e := - cols (fun t q => dot3 (hflux (a_e mu e) (a_ge q e)) (g_ne M e) * a_e t e) in
      - (dx3 M (fun p => cols (fun t q => dot3 (a_gv t p) (hflux (a_v mu p) (a_gv q p))))
         + (if m_hdg K then dS_h M interior + dS_v M interior else 0)
         + ds_surf M bnd + ds_bottom M bnd)
  end.

(** VerticalViscosityTerm.residual, momentum_eq.py:412-441. *)
Definition m_vvisc (psi u : vfield3 V F E) : R :=
  match m_muv K with
  | None => 0
  | Some mu =>
      let all (h : sfield3 V F E -> sfield3 V F E -> R) := h (w_x psi) (w_x u) + h (w_y psi) (w_y u) + h (w_z psi) (w_z u) in
      - (dx3 M (fun p => all (fun t q => c2 (a_gv t p) * (a_v mu p * c2 (a_gv q p))))
         + (if m_vdg K then
              dS_h M (fun f =>
                let sp := m_sipgv K * m_sigv K f true in
                let sm := m_sipgv K * m_sigv K f false in
                let smax := if Rgt_dec sp sm then sp else sm in
                let av (q : sfield3 V F E) := avg (fun s => a_f mu f s * c2 (a_gf q f s)) in
                smax * all (fun t q => c2 (jump3 M t f) * (avg (a_f mu f) * c2 (jump3 M q f)))
                - all (fun t q => av t * c2 (jump3 M q f))
                - all (fun t q => c2 (jump3 M t f) * av q))
            else 0))
  end.

(** Drag coefficient from the roughness length, momentum_eq.py:484-489. *)
Definition fit_b (h z0 : R) : R := - (7/4) * h - 3/2 * z0 + (h + 5/2 * z0) * ln ((h + z0) / z0).
Definition fit_drag (kappa h z0 : R) : R := (kappa * h / fit_b h z0) ^ 2.
(** the drag used, lines 478-489; None: an assertion fails *)
Definition m_drag : option (E -> R) :=
  match m_quad K with
  | Some d => Some d
  | None => match m_z0 K, m_velem K with
            | Some z0, Some h => Some (fun e => fit_drag (m_kappa K) (h e) (z0 e))
            | _, _ => None
            end
  end.
(** BottomFrictionTerm.residual, momentum_eq.py:467-494. *)
Definition m_bfric (psi u u_old : vfield3 V F E) : option R :=
  if m_friction K then
    match m_drag with
    | None => None
    | Some drag =>
        let uv := plus_dav u in
        let uvo := plus_dav u_old in
        Some (- ds_bottom M (fun e =>
          drag e * sqrt (a_e (w_x uvo) e ^ 2 + a_e (w_y uvo) e ^ 2)
          * (a_e (w_x psi) e * a_e (w_x uv) e + a_e (w_y psi) e * a_e (w_y uv) e)))
    end
  else Some 0.

(** LinearDragTerm.residual, momentum_eq.py:503-515. *)
Definition m_ldrag (psi u : vfield3 V F E) : R :=
  match m_linear K with
  | None => 0
  | Some c => - dx3 M (fun p => c p * dot3 (val_v psi p) (val_v (plus_dav u) p))
  end.

(** CoriolisTerm.residual, momentum_eq.py:522-528: the solution only. *)
Definition m_cor (psi u : vfield3 V F E) : R :=
  match m_coriolis K with
  | None => 0
  | Some f => - dx3 M (fun p => f p * (- a_v (w_y u) p * a_v (w_x psi) p + a_v (w_x u) p * a_v (w_y psi) p))
  end.

(** SourceTerm.residual, momentum_eq.py:554-568. *)
Definition m_src (psi : vfield3 V F E) : R :=
  match m_muv K, m_wind K with
  | Some _, Some tau => ds_surf M (fun e => (c0 (tau e) * a_e (w_x psi) e + c1 (tau e) * a_e (w_y psi) e) / m_rho0 K)
  | _, _ => 0
  end
  + match m_source K with
    | None => 0
    | Some s => dx3 M (fun p => dot3 (s p) (val_v psi p))
    end.

(** MomentumEquation with all its terms, momentum_eq.py:571-611; None: the assertion in the
    bottom friction term fails. *)
Definition mom_residual (psi u u_old : vfield3 V F E) : option R :=
  match m_bfric psi u u_old with
  | None => None
  | Some bf => Some (m_pressure psi + m_hadv psi u u_old + m_vadv psi u + m_hvisc psi u + m_vvisc psi u
                     + bf + m_ldrag psi u + m_cor psi u + m_src psi)
  end.

(* ------------------------------------------------------------------ *)
(** * Internal pressure gradient *)

(** InternalPressureGradientCalculator.residual without its sign, momentum_eq.py:663-706:
    the right-hand side of the projection that gives int_pg_3d. [by_parts]: the baroclinic
    head is discontinuous. [ext] is bnd_conditions[marker]['baroc_head']. *)
Definition ipg_rhs (g_grav : R) (scalar : option R) (by_parts : bool)
  (ext : nat -> option (E -> R)) (r : sfield3 V F E) (psi : vfield3 V F E) : R :=
  let t0 := w_x psi in
  let t1 := w_y psi in
  let n_test e := c0 (g_ne M e) * a_e t0 e + c1 (g_ne M e) * a_e t1 e in
  let f :=
    if by_parts then
      let facet f := g_grav * avg (a_f r f) * (c0 (jump3 M t0 f) + c1 (jump3 M t1 f)) in
      let top e := g_grav * a_e r e * n_test e in
      - dx3 M (fun p => g_grav * a_v r p * (c0 (a_gv t0 p) + c1 (a_gv t1 p)))
      + (dS_v M facet + dS_h M facet)
      + (ds_bottom M top + ds_surf M top)
      + ds_lat M (fun e => g_grav * (match ext (g_marker M e) with
                                     | Some x => 0.5 * (x e + a_e r e)
                                     | None => a_e r e
                                     end) * n_test e)
    else
      dx3 M (fun p => g_grav * (c0 (a_gv r p) * a_v t0 p + c1 (a_gv r p) * a_v t1 p)) in
  match scalar with None => f | Some s => s * f end.
End Mom3d.

Arguments menv3 : clear implicits.
Arguments mbnd : clear implicits.
