(** The 3D momentum equation assembled, and its implicit part: vertical viscosity,
    bottom friction, linear drag and wind stress in one backward Euler step.

    Simplifications: as in Galerkin3d_Model.v the geometry is an abstract type with a
    mesh and basis functions for each value, and entries of a vector outside the space
    have no residual and mass one; the depth averaged velocity is a member of the
    velocity space (utility3d.py writes it to uv_dav_3d, a Function of that space),
    given by its coefficients. *)
From Coq Require Import Reals List Bool Arith.
From Verif Require Import Forms_Model Forms3d_Model Forms3d_Spec Mom3d_Model RK_Model Galerkin3d_Model.
Import ListNotations.
Open Scope R_scope.

Section VMix.
Context {V F E Geo : Type}.
Local Notation vfield3 := (vfield3 V F E).
Local Notation sfield3 := (sfield3 V F E).
Local Notation menv3 := (menv3 V F E).

(** [sum(c[i]*psi[i] for i in range(n))] for vector valued basis functions *)
Definition vcomb3 (n : nat) (c : nat -> R) (psi : nat -> vfield3) : vfield3 :=
  mk_vf3 (comb3 n c (fun i => w_x (psi i))) (comb3 n c (fun i => w_y (psi i)))
         (comb3 n c (fun i => w_z (psi i))).

Variable mesh_of : Geo -> mesh3 V F E.
Variable n_dof : nat.
Variable basis : Geo -> nat -> vfield3.

Definition velocity_of (g : Geo) (c : nat -> R) : vfield3 := vcomb3 n_dof c (basis g).

(** MomentumEquation.residual assembled, momentum_eq.py:571-611, equation.py:116-141;
    [w] are the coefficients of solution_old. A failed assertion is raised while the
    form is built, before any step: see [buildable]. *)
Definition momentum_vector (g : Geo) (K : menv3) (c w : nat -> R) (i : nat) : R :=
  if Nat.ltb i n_dof
  then match mom_residual (mesh_of g) K (basis g i) (velocity_of g c) (velocity_of g w) with
       | Some r => r
       | None => 0
       end
  else 0.

(** the assertion of the bottom friction term holds, momentum_eq.py:480-483 *)
Definition buildable (K : menv3) : Prop := m_friction K = true -> m_drag K <> None.

(** Equation.mass_term, equation.py:99-105: inner(solution, test)*dx. *)
Definition momentum_mass (g : Geo) (c : nat -> R) (i : nat) : R :=
  if Nat.ltb i n_dof
  then dx3 (mesh_of g) (fun p => dot3 (val_v (velocity_of g c) p) (val_v (basis g i) p))
  else c i.

(** The implicit momentum equation: solver.py:684-693 builds it with
    use_nonlinear_equations=False and the friction option of the user, and
    coupled_timeintegrator.py:219-236 gives it the vertical viscosity and the friction
    fields only. [K] carries the user's options and fields. *)
Definition implicit_menv (K : menv3) (muv : option sfield3) : menv3 :=
  mk_menv3 false (m_hdg K) (m_vdg K) (m_lax K) None None None None muv
           (m_sigh K) (m_sigv K) (m_sipgh K) (m_sipgv K)
           (m_friction K) (m_quad K) (m_z0 K) (m_velem K) (m_kappa K)
           (m_linear K) None (m_wind K) (m_rho0 K) None None (m_bnd K) (m_sign0 K).

(** the implicit solver and the tendency form of the equation *)
Variable solve : ((nat -> R) -> nat -> R) -> (nat -> R) -> nat -> R.
Variable G : (Geo * menv3) -> (nat -> R) -> (nat -> R) -> nat -> R.
Variable semi : bool.
Variable dt : R.

(** Function.__iadd__ and __isub__ *)
Definition iadd (u d : nat -> R) : nat -> R := fun i => u i + d i.
Definition isub (u d : nat -> R) : nat -> R := fun i => u i - d i.

(** uv_3d += uv_dav_3d; mom_impl.advance(t); uv_3d -= uv_dav_3d,
    coupled_timeintegrator.py:549-552 and 694-699: [uv] is uv_3d, [dav] uv_dav_3d and
    [s] the state of mom_impl, whose solution is uv_3d. Result: the state of mom_impl
    and uv_3d. *)
Definition momentum_implicit_part (g : Geo) (K : menv3) (muv : option sfield3) (t : R)
  (uv dav : nat -> R) (s : st (D:=nat) (Env:=(Geo * menv3)%type)) : st (D:=nat) (Env:=(Geo * menv3)%type) * (nat -> R) :=
  let s1 := set_env (g, implicit_menv K muv) (set_sol (iadd uv dav) s) in
  let s2 := dirk_advance BackwardEulerTab G solve semi dt None t s1 in
  (s2, isub (sol s2) dav).
End VMix.
