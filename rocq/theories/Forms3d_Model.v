(** Weak forms of the 3D tracer equation, /repo/thetis/tracer_eq.py:78-381, and of the
    vertical velocity, /repo/thetis/utility3d.py:54-122.

    As in Forms_Model.v a form is evaluated by quadrature: an integral is a weighted sum
    over finitely many points, and a function is known by its values and gradients
    there, from both sides at interior facets. Every element family and degree is
    covered. Simplification: all forms use the same quadrature rule; the code takes
    degree 2p+1 for tracers and 2p for the vertical velocity, so a statement that relates
    the two holds up to the difference between these two rules. *)
From Coq Require Import Reals List String Bool.
From Verif Require Import Forms_Model.
Import ListNotations.
Open Scope R_scope.
Open Scope list_scope.

(** A vector with three components. *)
Record v3 := V3 { c0 : R; c1 : R; c2 : R }.
Definition dot3 (a b : v3) : R := c0 a * c0 b + c1 a * c1 b + c2 a * c2 b.
(** a[0]*b[0] + a[1]*b[1] *)
Definition doth (a b : v3) : R := c0 a * c0 b + c1 a * c1 b.
Definition add3 (a b : v3) : v3 := V3 (c0 a + c0 b) (c1 a + c1 b) (c2 a + c2 b).
Definition sub3 (a b : v3) : v3 := V3 (c0 a - c0 b) (c1 a - c1 b) (c2 a - c2 b).
Definition scal3 (k : R) (a : v3) : v3 := V3 (k * c0 a) (k * c1 a) (k * c2 a).
Definition opp3 (a : v3) : v3 := V3 (- c0 a) (- c1 a) (- c2 a).
Definition zero3 : v3 := V3 0 0 0.

Section Forms3d.
Context {V F E : Type}.

(** An extruded mesh: cells, interior facets between layers (dS_h) and between columns
    (dS_v), and the free surface, bottom and lateral boundaries. *)
Record mesh3 := mk_mesh3
  { g_cells : list V; g_wv : V -> R;                        (* dx *)
    g_hor : list F; g_ver : list F; g_wf : F -> R;           (* dS_h, dS_v *)
    g_nf : F -> v3;                                          (* normal('+') *)
    g_surf : list E; g_bot : list E; g_lat : list E;         (* ds_surf, ds_bottom, ds_v *)
    g_we : E -> R; g_ne : E -> v3;                           (* outward normal *)
    g_marker : E -> nat }.

Definition dx3 (m : mesh3) (g : V -> R) : R := integral (g_cells m) (g_wv m) g.
Definition dS_h (m : mesh3) (g : F -> R) : R := integral (g_hor m) (g_wf m) g.
Definition dS_v (m : mesh3) (g : F -> R) : R := integral (g_ver m) (g_wf m) g.
Definition ds_surf (m : mesh3) (g : E -> R) : R := integral (g_surf m) (g_we m) g.
Definition ds_bottom (m : mesh3) (g : E -> R) : R := integral (g_bot m) (g_we m) g.
Definition ds_lat (m : mesh3) (g : E -> R) : R := integral (g_lat m) (g_we m) g.

Definition nrm (m : mesh3) (f : F) (side : bool) : v3 :=
  if side then g_nf m f else opp3 (g_nf m f).

Record sfield3 := mk_s3
  { a_v : V -> R; a_gv : V -> v3;
    a_f : F -> bool -> R; a_gf : F -> bool -> v3;
    a_e : E -> R; a_ge : E -> v3 }.
Record vfield3 := mk_vf3 { w_x : sfield3; w_y : sfield3; w_z : sfield3 }.

Definition val_v (u : vfield3) (p : V) : v3 := V3 (a_v (w_x u) p) (a_v (w_y u) p) (a_v (w_z u) p).
Definition val_f (u : vfield3) (f : F) (s : bool) : v3 :=
  V3 (a_f (w_x u) f s) (a_f (w_y u) f s) (a_f (w_z u) f s).
Definition val_e (u : vfield3) (e : E) : v3 := V3 (a_e (w_x u) e) (a_e (w_y u) e) (a_e (w_z u) e).

Definition add_s (q r : sfield3) : sfield3 :=
  mk_s3 (fun p => a_v q p + a_v r p) (fun p => add3 (a_gv q p) (a_gv r p))
        (fun f s => a_f q f s + a_f r f s) (fun f s => add3 (a_gf q f s) (a_gf r f s))
        (fun e => a_e q e + a_e r e) (fun e => add3 (a_ge q e) (a_ge r e)).
Definition sub_s (q r : sfield3) : sfield3 :=
  mk_s3 (fun p => a_v q p - a_v r p) (fun p => sub3 (a_gv q p) (a_gv r p))
        (fun f s => a_f q f s - a_f r f s) (fun f s => sub3 (a_gf q f s) (a_gf r f s))
        (fun e => a_e q e - a_e r e) (fun e => sub3 (a_ge q e) (a_ge r e)).
Definition add_v (u w : vfield3) : vfield3 :=
  mk_vf3 (add_s (w_x u) (w_x w)) (add_s (w_y u) (w_y w)) (add_s (w_z u) (w_z w)).

(** avg(u) and jump(q, n) *)
Definition avg3 (u : vfield3) (f : F) : v3 := scal3 0.5 (add3 (val_f u f true) (val_f u f false)).
Definition jump3 (m : mesh3) (q : sfield3) (f : F) : v3 :=
  add3 (scal3 (a_f q f true) (nrm m f true)) (scal3 (a_f q f false) (nrm m f false)).

(* ------------------------------------------------------------------ *)
(** * Boundary conditions of the tracer equation *)

Inductive bval3 := BS3 (g : E -> R) | BV3 (g : E -> v3).
Definition bdict3 := list (string * bval3).
Fixpoint bget3 (k : string) (d : bdict3) : option bval3 :=
  match d with
  | [] => None
  | (k', v) :: r => if String.eqb k' k then Some v else bget3 k r
  end.

(** Errors: a scalar for a vector or conversely; 'flux', where tracer_eq.py:108
    multiplies an expression with the dictionary of boundary lengths (TypeError). *)
Inductive berr3 := BShape | BTypeError.
Inductive uvext3 := XSym | XUv (g : E -> v3) | XUn (g : E -> R).
Record tb3 := mk_tb3 { x_value : option (E -> R); x_uv : uvext3 }.

(** TracerTerm.get_bnd_functions, tracer_eq.py:78-116 (the external elevation is only
    used by 'flux'). *)
Definition get_bnd3 (d : bdict3) : tb3 + berr3 :=
  let value := match bget3 "value" d with
               | None => inl None
               | Some (BS3 g) => inl (Some g)
               | Some (BV3 _) => inr BShape
               end in
  match value with
  | inr e => inr e
  | inl v =>
      match bget3 "uv" d, bget3 "flux" d, bget3 "un" d with
      | Some (BV3 g), _, _ => inl (mk_tb3 v (XUv g))
      | Some (BS3 _), _, _ => inr BShape
      | None, Some _, _ => inr BTypeError
      | None, None, Some (BS3 g) => inl (mk_tb3 v (XUn g))
      | None, None, Some (BV3 _) => inr BShape
      | None, None, None => inl (mk_tb3 v XSym)
      end
  end.

(* ------------------------------------------------------------------ *)
(** * Tracer terms *)

Record tenv3 := mk_tenv3
  { k_hdg : bool; k_vdg : bool;            (* horizontal_dg, vertical_dg *)
    k_symm : bool;                         (* use_symmetric_surf_bnd *)
    k_lax : option R;                      (* use_lax_friedrichs and its factor *)
    k_uv : option vfield3;                 (* fields 'uv_3d' *)
    k_dav : option vfield3;                (* 'uv_depth_av' *)
    k_w : option sfield3;                  (* 'w', third component *)
    k_wmesh : option sfield3;              (* 'w_mesh' *)
    k_muh : option sfield3; k_muv : option sfield3;
    k_sigh : F -> bool -> R;               (* cp * FacetArea / CellVolume *)
    k_sigv : F -> bool -> R;
    k_sipgh : R; k_sipgv : R;
    k_source : option (V -> R);
    k_bnd : nat -> option tb3;             (* bnd_conditions.get(marker), resolved *)
    k_sign0 : R }.                         (* sign(0) *)

Variable M : mesh3.
Variable K : tenv3.

Definition sgn (x : R) : R :=
  if Rlt_dec 0 x then 1 else if Rlt_dec x 0 then -1 else k_sign0 K.
Definition upw (x : R) : R := 0.5 * (sgn x + 1).
Definition c_up (c : sfield3) (f : F) (un : R) : R :=
  a_f c f false * upw un + a_f c f true * (1 - upw un).

(** uv = uv_3d + uv_depth_av, tracer_eq.py:142-147 *)
Definition full_uv : option vfield3 :=
  match k_uv K, k_dav K with
  | None, _ => None
  | Some u, None => Some u
  | Some u, Some d => Some (add_v u d)
  end.

Definition ext_value (tb : tb3) (c_in : R) (e : E) : R :=
  match x_value tb with Some v => v e | None => c_in end.
Definition ext_uv (tb : tb3) (uv_in : v3) (e : E) : v3 :=
  match x_uv tb with
  | XSym => uv_in
  | XUv g => g e
  | XUn g => scal3 (g e) (g_ne M e)
  end.

(** The contribution of one lateral boundary point, tracer_eq.py:174-189. *)
Definition adv_lat (phi c : sfield3) (uv : vfield3) (e : E) : R :=
  match k_bnd K (g_marker M e) with
  | None => 0
  | Some tb =>
      let c_in := a_e c e in
      let uv_in := val_e uv e in
      let uv_av := scal3 0.5 (add3 uv_in (ext_uv tb uv_in e)) in
      let un_av := doth (g_ne M e) uv_av in
      let s := upw un_av in
      c_in * doth uv_in (g_ne M e) * a_e phi e
      + (1 - s) * (ext_value tb c_in e - c_in) * un_av * a_e phi e
  end.

(** HorizontalAdvectionTerm.residual, tracer_eq.py:139-193. *)
Definition hor_adv (phi c : sfield3) : R :=
  match full_uv with
  | None => 0
  | Some uv =>
      let un f := doth (avg3 uv f) (nrm M f false) in
      let flux f := c_up c f (un f) * dot3 (avg3 uv f) (jump3 M phi f) in
      - (- dx3 M (fun p => a_v c p * dot3 (val_v uv p) (a_gv phi p))
         + (if k_hdg K then
              dS_v M flux + dS_h M flux
              + match k_lax K with
                | None => 0
                | Some lf =>
                    let lax f := 0.5 * Rabs (un f) * lf * (jump (a_f phi f) * jump (a_f c f)) in
                    dS_v M lax + dS_h M lax
                end
              + ds_lat M (adv_lat phi c uv)
            else 0)
         + (if k_symm K then ds_surf M (fun e => a_e c e * doth (val_e uv e) (g_ne M e) * a_e phi e)
            else 0))
  end.

(** vertvelo, tracer_eq.py:221-223 *)
Definition vertvelo : option sfield3 :=
  match k_w K, k_wmesh K with
  | None, _ => None
  | Some w, None => Some w
  | Some w, Some wm => Some (sub_s w wm)
  end.

(** VerticalAdvectionTerm.residual, tracer_eq.py:215-242. *)
Definition ver_adv (phi c : sfield3) : R :=
  match vertvelo with
  | None => 0
  | Some w =>
      let w_av f := avg (a_f w f) in
      - (- dx3 M (fun p => a_v c p * a_v w p * c2 (a_gv phi p))
         + (if k_vdg K then
              dS_h M (fun f => c_up c f (w_av f * c2 (nrm M f false)) * w_av f * c2 (jump3 M phi f))
              + match k_lax K with
                | None => 0
                | Some lf =>
                    dS_h M (fun f => 0.5 * Rabs (w_av f * c2 (nrm M f false)) * lf
                                     * (jump (a_f phi f) * jump (a_f c f)))
                end
            else 0)
         + ds_surf M (fun e => a_e c e * a_e w e * c2 (g_ne M e) * a_e phi e))
  end.

(** The diffusive flux dot(diff_tensor, grad(q)), horizontal. *)
Definition hflux (mu : R) (g : v3) : v3 := V3 (mu * c0 g) (mu * c1 g) 0.

(** HorizontalDiffusionTerm.residual, tracer_eq.py:269-310. *)
Definition hor_diff (phi c : sfield3) : R :=
  match k_muh K with
  | None => 0
  | Some mu =>
      let interior f :=
        let sp := k_sigh K f true in
        let sm := k_sigh K f false in
        let smax := k_sipgh K * (if Rgt_dec sp sm then sp else sm) in
        let av q := scal3 0.5 (add3 (hflux (a_f mu f true) (a_gf q f true))
                                    (hflux (a_f mu f false) (a_gf q f false))) in
        smax * dot3 (jump3 M phi f) (hflux (avg (a_f mu f)) (jump3 M c f))
        - dot3 (av phi) (jump3 M c f)
        - dot3 (jump3 M phi f) (av c) in
      let bnd e := - (dot3 (hflux (a_e mu e) (a_ge c e)) (g_ne M e) * a_e phi e) in
      - (dx3 M (fun p => dot3 (a_gv phi p) (hflux (a_v mu p) (a_gv c p)))
         + (if k_hdg K then dS_h M interior + dS_v M interior else 0)
         + ds_bottom M bnd + ds_surf M bnd)
  end.

(** VerticalDiffusionTerm.residual, tracer_eq.py:334-366. *)
Definition ver_diff (phi c : sfield3) : R :=
  match k_muv K with
  | None => 0
  | Some mu =>
      - (dx3 M (fun p => c2 (a_gv phi p) * (a_v mu p * c2 (a_gv c p)))
         + (if k_vdg K then
              dS_h M (fun f =>
                let sp := k_sipgv K * k_sigv K f true in
                let sm := k_sipgv K * k_sigv K f false in
                let smax := if Rgt_dec sp sm then sp else sm in
                let av q := avg (fun s => a_f mu f s * c2 (a_gf q f s)) in
                smax * (c2 (jump3 M phi f) * (avg (a_f mu f) * c2 (jump3 M c f)))
                - av phi * c2 (jump3 M c f)
                - c2 (jump3 M phi f) * av c)
            else 0))
  end.

(** SourceTerm.residual, tracer_eq.py:380-385. *)
Definition tsource (phi : sfield3) : R :=
  match k_source K with
  | None => 0
  | Some s => dx3 M (fun p => s p * a_v phi p)
  end.

(** TracerEquation with all its terms, tracer_eq.py:388-426. *)
Definition tracer_residual3 (phi c : sfield3) : R :=
  hor_adv phi c + ver_adv phi c + hor_diff phi c + ver_diff phi c + tsource phi.

(* ------------------------------------------------------------------ *)
(** * Vertical velocity *)

(** Left-hand side of VerticalVelocitySolver, utility3d.py:88-90. *)
Definition w_lhs (phi w : sfield3) : R :=
  ds_surf M (fun e => a_e w e * a_e phi e * c2 (g_ne M e))
  + dS_h M (fun f => avg (a_f w f) * c2 (jump3 M phi f))
  - dx3 M (fun p => c2 (a_gv phi p) * a_v w p).

(** Right-hand side, utility3d.py:92-113; [open_bnd] says which markers have boundary
    conditions of the momentum equation. *)
Definition w_rhs (open_bnd : nat -> bool) (phi : sfield3) (uv : vfield3) : R :=
  let facet f := dot3 (avg3 uv f) (jump3 M phi f) in
  dx3 M (fun p => dot3 (val_v uv p) (a_gv phi p))
  - dS_v M facet - dS_h M facet
  - ds_surf M (fun e => dot3 (val_e uv e) (g_ne M e) * a_e phi e)
  - ds_lat M (fun e => if open_bnd (g_marker M e) then doth (val_e uv e) (g_ne M e) * a_e phi e else 0).
End Forms3d.

Arguments mesh3 : clear implicits.
Arguments sfield3 : clear implicits.
Arguments vfield3 : clear implicits.
Arguments tenv3 : clear implicits.
Arguments tb3 : clear implicits.
