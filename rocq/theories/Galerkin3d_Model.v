(** The 3D tracer equation assembled on a moving mesh, and what one time step of
    the coupled 3D integrators does to a tracer.

    Simplifications: the geometry is an abstract type with a mesh and basis
    functions for each value; the velocities, the mesh velocity and the
    diffusivities the equation sees in each phase of a step are given (C61 says
    which values those are); entries of a vector outside the space have no
    residual and mass one. *)
From Coq Require Import Reals List Bool Arith.
From Verif Require Import Forms_Model Forms3d_Model Forms3d_Spec RK_Model TimeInt_Model.
Import ListNotations.
Open Scope R_scope.

Section Galerkin3d.
Context {V F E Geo : Type}.
Local Notation sfield3 := (sfield3 V F E).
Local Notation tenv3 := (tenv3 V F E).

Definition scale3 (k : R) (q : sfield3) : sfield3 :=
  mk_s3 (fun p => k * a_v q p) (fun p => scal3 k (a_gv q p))
        (fun f s => k * a_f q f s) (fun f s => scal3 k (a_gf q f s))
        (fun e => k * a_e q e) (fun e => scal3 k (a_ge q e)).

(** [sum(c[i]*phi[i] for i in range(n))] *)
Fixpoint comb3 (n : nat) (c : nat -> R) (phi : nat -> sfield3) : sfield3 :=
  match n with
  | O => const3 0
  | S m => add_s (comb3 m c phi) (scale3 (c m) (phi m))
  end.

Variable mesh_of : Geo -> mesh3 V F E.
(** number of degrees of freedom of the tracer space; the basis functions move
    with the mesh *)
Variable n_dof : nat.
Variable basis : Geo -> nat -> sfield3.

Definition tracer3_of (g : Geo) (c : nat -> R) : sfield3 := comb3 n_dof c (basis g).

(** TracerEquation.residual assembled, tracer_eq.py:384-411, equation.py:116-141. *)
Definition tracer3_vector (g : Geo) (K : tenv3) (c : nat -> R) (i : nat) : R :=
  if Nat.ltb i n_dof then tracer_residual3 (mesh_of g) K (basis g i) (tracer3_of g c) else 0.

(** Equation.mass_term, equation.py:99-105, and the forms mu_form, mass_new and
    mass_old, timeintegrator.py:517-518, 650. *)
Definition tracer3_mass (g : Geo) (c : nat -> R) (i : nat) : R :=
  if Nat.ltb i n_dof
  then dx3 (mesh_of g) (fun p => a_v (tracer3_of g c) p * a_v (basis g i) p)
  else c i.

(** The fields of the implicit equation, coupled_timeintegrator.py:257-260 and
    286-289: only the vertical diffusivity. *)
Definition implicit_env (K : tenv3) (muv : option sfield3) : tenv3 :=
  mk_tenv3 (k_hdg K) (k_vdg K) (k_symm K) (k_lax K) None None None None None muv
           (k_sigh K) (k_sigv K) (k_sipgh K) (k_sipgv K) None (k_bnd K) (k_sign0 K).

(* ------------------------------------------------------------------ *)
(** * One time step *)

(** [lin_solver.solve] with the mass matrix of a geometry *)
Variable msolve : Geo -> (nat -> R) -> nat -> R.
(** tracer_limiter.apply, or the identity without use_limiter_for_tracers *)
Variable limit : Geo -> (nat -> R) -> nat -> R.
(** the implicit solver and the tendency form of the implicit equation *)
Variable solve : ((nat -> R) -> nat -> R) -> (nat -> R) -> nat -> R.
Variable G : (Geo * tenv3) -> (nat -> R) -> (nat -> R) -> nat -> R.
Variable semi : bool.
Variable dt : R.
(** update_forcings3d *)
Variable uf : option (R -> tenv3 -> tenv3).

Local Notation ast := (ast (D:=nat) (Geo:=Geo) (Env:=tenv3)).
Local Notation st := (st (D:=nat) (Env:=(Geo * tenv3)%type)).

(** the explicit and the implicit integrator of a tracer share its Function *)
Record tracer_state := mk_ts { expl : ast; impl : st }.

Definition sees (K : tenv3) (s : ast) : ast :=
  mk_ast (asol s) (amu s) (amu_old s) (aold s) (ageo s) K.
Definition assign (c : nat -> R) (s : ast) : ast :=
  mk_ast c (amu s) (amu_old s) (aold s) (ageo s) (aenv s).
Definition limited (s : ast) : ast := assign (limit (ageo s) (asol s)) s.


(** salt_impl.advance(t), with use_implicit_vertical_diffusion; [muv] is the
    vertical diffusivity, [None] without implicit diffusion. *)
Definition implicit_part (implicit : bool) (muv : option sfield3) (t : R) (s : tracer_state) : tracer_state :=
  if implicit then
    let e := expl s in
    let i := set_env (ageo e, implicit_env (aenv e) muv) (set_sol (asol e) (impl s)) in
    let i := dirk_advance BackwardEulerTab G solve semi dt None t i in
    mk_ts (assign (sol i) e) i
  else s.

(** The tracer in CoupledTwoStageRK.advance, coupled_timeintegrator.py:620-694:
    [K0], [K1] are the fields at the assembly of the two stages, [g1], [g2] the
    geometries the mesh is moved to, [muv] the diffusivity of the implicit
    part. *)
Definition stage_one (K0 : tenv3) (g1 : Geo) (t : R) (s : ast) : ast :=
  limited (ale_stage_solve msolve (ale_move g1
    (ale_prepare_stage tracer3_mass tracer3_vector dt uf 0 t (sees K0 s)))).
Definition stage_two (K1 : tenv3) (g2 : Geo) (t : R) (s : ast) : ast :=
  limited (ale_stage_solve msolve (ale_move g2
    (ale_prepare_stage tracer3_mass tracer3_vector dt uf 1 t (sees K1 s)))).
Definition rk_tracer_step (implicit : bool) (K0 K1 : tenv3) (g1 g2 : Geo)
  (muv : option sfield3) (t : R) (s : tracer_state) : tracer_state :=
  implicit_part implicit muv t
    (mk_ts (stage_two K1 g2 t (stage_one K0 g1 t (expl s))) (impl s)).

(** The tracer in CoupledLeapFrogAM3.advance, coupled_timeintegrator.py:435-548:
    [K0] are the fields at the prediction (with no mesh velocity), [K1] those at
    the correction. *)
Definition lf_half (K0 : tenv3) (s : ast) : ast :=
  limited (lf_predict tracer3_mass tracer3_vector msolve dt (sees K0 s)).
Definition lf_tracer_step (implicit : bool) (K0 K1 : tenv3) (g1 : Geo)
  (muv : option sfield3) (t : R) (s : tracer_state) : tracer_state :=
  let e := lf_half K0 (expl s) in
  let e := ale_move g1 (lf_eval_rhs tracer3_vector dt (sees K1 e)) in
  let e := limited (lf_correct msolve e) in
  implicit_part implicit muv t (mk_ts e (impl s)).

End Galerkin3d.

(* ------------------------------------------------------------------ *)
(** * From the 2D elevation to the mesh *)

(** A Projector, utility3d.py:738-742: [p] is the element of the space spanned by
    [phi] with the same moments as [q]; functions are values at the quadrature
    points [pts] of the 2D mesh with weights [w]. The linear solve is given by
    the equation it solves. *)
Definition is_projection {X : Type} (pts : list X) (w : X -> R) (n : nat) (phi : nat -> X -> R)
  (q p : X -> R) : Prop :=
  (exists c : nat -> R, forall x, In x pts -> p x = rsum n (fun i => c i * phi i x)) /\
  (forall i, (i < n)%nat ->
     integral pts w (fun x => p x * phi i x) = integral pts w (fun x => q x * phi i x)).

(** proj_elev_to_cg_2d and proj_elev_cg_to_coords_2d, utility3d.py:818-819: the
    elevation to the continuous space [cg], then to the space of the coordinates
    [co], in which it has the nodal values [e]. *)
Definition elev_to_coords {X N : Type} (pts : list X) (w : X -> R) (ncg nco : nat)
  (cg co : nat -> X -> R) (verts : X -> list N) (lam : X -> N -> R)
  (elev : X -> R) (e : N -> R) : Prop :=
  exists c, is_projection pts w ncg cg elev c /\
            is_projection pts w nco co c (fun x => integral (verts x) (lam x) e).
