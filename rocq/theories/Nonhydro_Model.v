(** Model of DepthIntegratedPoissonSolver, /repo/thetis/utility.py:999-1106: the weak
    equation of the non-hydrostatic pressure and the two velocity updates.

    Forms are evaluated by quadrature as in Forms_Model.v; linear solves are exact.  The
    pressure space is continuous. *)
From Coq Require Import Reals List Bool.
From Verif Require Import Forms_Model.
Import ListNotations.
Open Scope R_scope.
Open Scope list_scope.

Section NH.
Context {V F B : Type}.
Notation mesh := (mesh V F B).
Notation sfield := (sfield V F B).
Notation vfield := (vfield V F B).

Record nh_env := mk_nh
  { nh_mesh : mesh; nh_rho : R; nh_dt : R;
    nh_bath : sfield; nh_elev : sfield;
    nh_h : sfield;                       (* h_star, 1046 *)
    nh_bnd : nat -> bool }.              (* bnd_functions['shallow_water'].get(marker) is not None, 1069-1071 *)

Variable E : nh_env.

(** grad_hori = grad(elev - bath), 1052 *)
Definition gh (p : V) : R * R :=
  (fst (s_gv (nh_elev E) p) - fst (s_gv (nh_bath E) p), snd (s_gv (nh_elev E) p) - snd (s_gv (nh_bath E) p)).
Definition gh_b (b : B) : R * R :=
  (fst (s_gb (nh_elev E) b) - fst (s_gb (nh_bath E) b), snd (s_gb (nh_elev E) b) - snd (s_gb (nh_bath E) b)).
(** w_b = -dot(uv, grad(bath)), 1047 *)
Definition w_bed (u : vfield) (p : V) : R := - dot2 (vv u p) (s_gv (nh_bath E) p).
(** const = 2*rho_0/dt, 1060 *)
Definition nh_const : R := 2 * nh_rho E / nh_dt E.
(** grad(q*test/h): the quotient rule applied by the form language *)
Definition grad_qth (q t : sfield) (p : V) : R * R :=
  let h := s_v (nh_h E) p in
  let g c := (s_v t p * c (s_gv q p) + s_v q p * c (s_gv t p)) / h - s_v q p * s_v t p * c (s_gv (nh_h E) p) / (h * h) in
  (g fst, g snd).

(** the form f without the boundary terms, 1049-1061 *)
Definition nh_cells (u : vfield) (w : V -> R) (q t : sfield) : R :=
  let M := nh_mesh E in
  - dx M (fun p => dot2 (s_gv q p) (s_gv t p))
  + dx M (fun p => dot2 (gh p) (s_gv q p) / s_v (nh_h E) p * s_v t p)
  - dx M (fun p => dot2 (grad_qth q t p) (gh p))
  - dx M (fun p => (dot2 (gh p) (s_gv (nh_h E) p) + 4) / (s_v (nh_h E) p * s_v (nh_h E) p) * s_v q p * s_v t p)
  + nh_const * (dx M (fun p => dot2 (s_gv t p) (vv u p))
                - dx M (fun p => 2 * (w p - w_bed u p) / s_v (nh_h E) p * s_v t p)).
(** ds(marker) over the markers with a boundary condition *)
Definition ds_open (g : B -> R) : R :=
  ds (nh_mesh E) (fun b => if nh_bnd E (m_marker (nh_mesh E) b) then g b else 0).
(** the boundary terms, 1073-1074 *)
Definition nh_open (u : vfield) (q t : sfield) : R :=
  ds_open (fun b => s_b q b * s_b t b / s_b (nh_h E) b * dot2 (gh_b b) (m_nb (nh_mesh E) b))
  - nh_const * ds_open (fun b => dot2 (vb u b) (m_nb (nh_mesh E) b) * s_b t b).
Definition nh_form (u : vfield) (w : V -> R) (q t : sfield) : R := nh_cells u w q t + nh_open u q t.

(** the Dirichlet conditions collected in bcs, 1064-1072: where q would be set to zero ... *)
Definition bcs (b : B) : bool := nh_bnd E (m_marker (nh_mesh E) b).
(** ... and the problem that is solved, which is built without them, 1076 *)
Definition nh_pressure (QS : sfield -> Prop) (u : vfield) (w : V -> R) (q : sfield) : Prop :=
  QS q /\ forall t, QS t -> nh_form u w q t = 0.

(** the horizontal update, 1083-1090 *)
Definition nh_rhs_u (u : vfield) (q : sfield) (p : V) : R * R :=
  let k := 0.5 * nh_dt E / nh_rho E in
  let c f := f (vv u p) - k * (f (s_gv q p) + f (gh p) / s_v (nh_h E) p * s_v q p) in
  (c fst, c snd).
Definition nh_velocity (US : (V -> R * R) -> Prop) (u : vfield) (q : sfield) (u' : vfield) : Prop :=
  US (vv u') /\ forall t, US t ->
    dx (nh_mesh E) (fun p => dot2 (vv u' p) (t p)) = dx (nh_mesh E) (fun p => dot2 (nh_rhs_u u q p) (t p)).
(** the vertical update, 1092-1096 *)
Definition nh_vertical (WS : (V -> R) -> Prop) (w : V -> R) (q : sfield) (w' : V -> R) : Prop :=
  WS w' /\ forall t, WS t ->
    dx (nh_mesh E) (fun p => w' p * t p)
    = dx (nh_mesh E) (fun p => (w p + nh_dt E / nh_rho E * (s_v q p / s_v (nh_h E) p)) * t p).

(** solve, 1097-1106: pressure, horizontal velocity and, unless switched off, vertical velocity *)
Definition nh_solve (QS : sfield -> Prop) (US : (V -> R * R) -> Prop) (WS : (V -> R) -> Prop) (solve_w : bool)
  (u : vfield) (w : V -> R) (q : sfield) (u' : vfield) (w' : V -> R) : Prop :=
  nh_pressure QS u w q /\ nh_velocity US u q u' /\ (if solve_w then nh_vertical WS w q w' else w' = w).
End NH.
