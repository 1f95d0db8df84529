(** Weak gradients and what is computed from them: the Smagorinsky viscosity
    (/repo/thetis/utility3d.py:886-998), the vertical gradients of the turbulence
    closure (turbulence.py:167-210, 279-325), the velocity magnitude
    (utility3d.py:330-373) and the mesh consistency metric (utility3d.py:375-470).
    Forms are evaluated by quadrature as in Forms3d_Model.v. Simplification: nodal
    values are exact numbers; the linear solves are described by the equation they
    solve. *)
From Coq Require Import Reals List Bool.
From Verif Require Import Forms_Model Forms3d_Model.
Import ListNotations.
Open Scope R_scope.

Inductive axis := AX | AY | AZ.
Definition comp (a : axis) (v : v3) : R := match a with AX => c0 v | AY => c1 v | AZ => c2 v end.

Section Weak.
Context {V F E : Type}.
Variable M : mesh3 V F E.

(** jump(test, normal[i]) *)
Definition jump_n (a : axis) (phi : sfield3 V F E) (f : F) : R :=
  a_f phi f true * comp a (nrm M f true) + a_f phi f false * comp a (nrm M f false).

(** a = inner(tri, test)*dx, utility3d.py:958, turbulence.py:198 *)
Definition grad_lhs (g phi : sfield3 V F E) : R := dx3 M (fun p => a_v g p * a_v phi p).
(** One entry of the velocity gradient, utility3d.py:961-967 (axis 0 or 1): the volume
    term, the interior vertical facets and the lateral boundary. *)
Definition hgrad_rhs (a : axis) (u phi : sfield3 V F E) : R :=
  - dx3 M (fun p => comp a (a_gv phi p) * a_v u p)
  + dS_v M (fun f => avg (a_f u f) * jump_n a phi f)
  + ds_lat M (fun e => a_e u e * (a_e phi e * comp a (g_ne M e))).
(** VerticalGradSolver.__init__, turbulence.py:193-204 *)
Definition vgrad_rhs (p phi : sfield3 V F E) : R :=
  - dx3 M (fun x => a_v p x * c2 (a_gv phi x))
  + dS_h M (fun f => avg (a_f p f) * jump_n AZ phi f)
  + (ds_surf M (fun e => a_e p e * a_e phi e * c2 (g_ne M e))
     + ds_bottom M (fun e => a_e p e * a_e phi e * c2 (g_ne M e))).
End Weak.

(* ------------------------------------------------------------------ *)
(** * Smagorinsky viscosity *)
(** grad[0..3] = du/dx, du/dy, dv/dx, dv/dy (i = 2*iuv + ix) *)
Record tensor := T4 { g00 : R; g01 : R; g10 : R; g11 : R }.
(** d_t and d_s, utility3d.py:973-974 *)
Definition d_t (g : tensor) : R := g00 g - g11 g.
Definition d_s (g : tensor) : R := g01 g + g10 g.
(** nu, 984 *)
Definition smag_nu (c_s h : R) (g : tensor) : R := c_s ^ 2 * h ^ 2 * sqrt (d_t g ^ 2 + d_s g ^ 2).
(** The two clips of solve, 992-998, at one node *)
Definition smag_clip (min_val max_val x : R) : R :=
  let x := if Rlt_dec x min_val then min_val else x in
  if Rgt_dec x max_val then max_val else x.

(** VelocityMagnitudeSolver, 357-373: the expression that is projected, and the clip *)
Definition magnitude (u : option (R * R)) (w : option R) : R :=
  sqrt ((match u with Some (u0, u1) => u0 ^ 2 + u1 ^ 2 | None => 0 end)
        + match w with Some w => w ^ 2 | None => 0 end).
Definition mag_clip (min_val x : R) : R := Rmax x min_val.

(* ------------------------------------------------------------------ *)
(** * Buoyancy frequency *)
(** p = -g/rho0 * rho, turbulence.py:301-303 *)
Definition buoy_source {V F E : Type} (g_grav rho0 : R) (rho : sfield3 V F E) : sfield3 V F E :=
  let k := - g_grav / rho0 in
  mk_s3 (fun p => k * a_v rho p) (fun p => scal3 k (a_gv rho p))
        (fun f s => k * a_f rho f s) (fun f s => scal3 k (a_gf rho f s))
        (fun e => k * a_e rho e) (fun e => scal3 k (a_ge rho e)).

(* ------------------------------------------------------------------ *)
(** * Mesh3DConsistencyCalculator *)
(** The kernel, utility3d.py:423-452: a prism is the list of its vertical edges
    (bottom, top); the answers are the values at the bottom and top nodes. *)
Definition z_max (l : list R) : R := fold_left (fun m z => Rmax z m) l (-1e20).
Definition z_min (l : list R) : R := fold_left (fun m z => Rmin z m) l 1e20.
Definition hcc (prism : list (R * R)) : list (R * R) :=
  let delta_top := z_max (map snd prism) - z_min (map snd prism) in
  let delta_bot := z_max (map fst prism) - z_min (map fst prism) in
  map (fun e => let h := snd e - fst e in (delta_bot / h, delta_top / h)) prism.
