(** From weak forms to the vectors the time integrators work with: a function
    of a finite element space is the combination of its basis functions, and
    the residual vector has one entry per basis function (the form with that
    basis function as test function).

    Simplification: the entries of a vector outside the space (there are none
    in the program) have no residual and mass one. *)
From Coq Require Import Reals List Bool Arith.
From Verif Require Import Forms_Model Forms_Spec.
Import ListNotations.
Open Scope R_scope.

Section Galerkin.
Context {V F B : Type}.
Local Notation sfield := (sfield V F B).
Local Notation vfield := (vfield V F B).
Local Notation swe_env := (swe_env V F B).
Local Notation tracer_env := (tracer_env V F B).

(** Sum of two functions, with their gradients. *)
Definition add_s (p q : sfield) : sfield :=
  mk_s (fun x => s_v p x + s_v q x) (fun x => add2 (s_gv p x) (s_gv q x))
       (fun f s => s_f p f s + s_f q f s) (fun f s => add2 (s_gf p f s) (s_gf q f s))
       (fun b => s_b p b + s_b q b) (fun b => add2 (s_gb p b) (s_gb q b)).

(** [sum(c[i]*phi[i] for i in range(n))] *)
Fixpoint comb (n : nat) (c : nat -> R) (phi : nat -> sfield) : sfield :=
  match n with
  | O => const_s 0
  | S m => add_s (comb m c phi) (scale_s (c m) (phi m))
  end.

(** The mixed space [V_2d = U_2d*H_2d] of solver2d.py:345: degrees of
    freedom of the velocity and of the elevation. *)
Inductive dof := UV (j : nat) | ETA (i : nat).
Record space := mk_space { n_eta : nat; phi : nat -> sfield; n_uv : nat; psi : nat -> vfield }.

(** [uv, eta = split(solution)], shallowwater_eq.py:923-927. *)
Definition eta_of (W : space) (u : dof -> R) : sfield :=
  comb (n_eta W) (fun i => u (ETA i)) (phi W).
Definition uv_of (W : space) (u : dof -> R) : vfield :=
  mk_vf (comb (n_uv W) (fun j => u (UV j)) (fun j => v_x (psi W j)))
        (comb (n_uv W) (fun j => u (UV j)) (fun j => v_y (psi W j))).

(** ShallowWaterEquations.residual, shallowwater_eq.py:922-928, assembled.
    [dh] is div(H u) (used for a continuous velocity only). The exception about
    two drag parameters (C49) is raised when the form is built; a row which
    would raise it is zero here. *)
Definition swe_vector (W : space) (E : swe_env) (dh : (dof -> R) -> (dof -> R) -> V -> R)
  (u w : dof -> R) (x : dof) : R :=
  match x with
  | ETA i =>
      if Nat.ltb i (n_eta W)
      then continuity_residual E (phi W i) (uv_of W u) (eta_of W u) (uv_of W w) (eta_of W w) (dh u w)
      else 0
  | UV j =>
      if Nat.ltb j (n_uv W)
      then match momentum_residual E (psi W j) (uv_of W u) (eta_of W u) (uv_of W w) (eta_of W w) with
           | Some r => r
           | None => 0
           end
      else 0
  end.

(** ShallowWaterEquations.mass_term, shallowwater_eq.py:917-920, with
    BathymetryDisplacementMassTerm.residual (:844-850) and Equation.mass_term
    (equation.py:99-105). [disp p h] is
    [depth.wd_bathymetry_displacement(eta)] at the point [p] for eta = h. *)
Definition swe_mass (W : space) (M : mesh V F B) (disp : V -> R -> R) (u : dof -> R) (x : dof) : R :=
  match x with
  | ETA i =>
      if Nat.ltb i (n_eta W)
      then dx M (fun p => s_v (eta_of W u) p * s_v (phi W i) p)
           + dx M (fun p => disp p (s_v (eta_of W u) p) * s_v (phi W i) p)
      else u x
  | UV j =>
      if Nat.ltb j (n_uv W)
      then dx M (fun p => dot2 (vv (uv_of W u) p) (vv (psi W j) p))
      else u x
  end.

(** DepthExpression.wd_bathymetry_displacement, utility.py:975-985; [alpha] is
    [None] without wetting and drying, and may vary in space. *)
Definition wd_displacement (alpha : option (V -> R)) (bath : V -> R) (p : V) (h : R) : R :=
  match alpha with
  | Some a => 0.5 * (sqrt ((bath p + h) * (bath p + h) + a p * a p) - (bath p + h))
  | None => 0
  end.

(** DepthExpression.get_total_depth, utility.py:987-996. *)
Definition wd_depth (nonlinear : bool) (alpha : option (V -> R)) (bath : V -> R) (p : V) (h : R) : R :=
  if nonlinear then bath p + h + wd_displacement alpha bath p h else bath p.

(** Tracer spaces: [tracer_of] is the tracer, [tracer_vector] the assembled
    TracerEquation2D / ConservativeTracerEquation2D residual
    (tracer_eq_2d.py:453-488): advection, diffusion, source. The
    velocity, elevation and [gext] are fields given to the equation.
    Simplification: the velocity and elevation are the same for each row. *)
Record tspace := mk_tspace { n_c : nat; chi : nat -> sfield }.
Definition tracer_of (W : tspace) (c : nat -> R) : sfield := comb (n_c W) c (chi W).

Definition tracer_vector (conservative : bool) (W : tspace) (E : swe_env) (T : tracer_env)
  (uv : vfield) (elev : sfield) (gext : B -> R * R) (c : nat -> R) (i : nat) : R :=
  if Nat.ltb i (n_c W) then
    (if conservative then cons_advection E T (chi W i) (tracer_of W c) uv elev
     else tracer_advection E T (chi W i) (tracer_of W c) uv elev)
    + tracer_diffusion E T (chi W i) (tracer_of W c) uv elev gext
    + (if conservative then cons_source E T (chi W i) elev else tracer_source E T (chi W i))
  else 0.

(** Equation.mass_term (equation.py:99-105). *)
Definition tracer_mass (W : tspace) (M : mesh V F B) (c : nat -> R) (i : nat) : R :=
  if Nat.ltb i (n_c W) then dx M (fun p => s_v (tracer_of W c) p * s_v (chi W i) p) else c i.

End Galerkin.
