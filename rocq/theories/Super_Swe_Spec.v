(** C90: what drives the water in the linear shallow water equations. *)
From Coq Require Import Reals List.
From Verif Require Import Forms_Model Galerkin_Model Super_Spec.
Open Scope R_scope.

(** vectors given in all three problems or in none; not given is zero *)
Definition mixed2 {X : Type} (a b : R) (g g1 g2 : X -> R * R) : Prop :=
  forall x, g x = (a * fst (g1 x) + b * fst (g2 x), a * snd (g1 x) + b * snd (g2 x)).
Definition given2 {X : Type} (o : option (X -> R * R)) (x : X) : R * R :=
  match o with Some s => s x | None => (0, 0) end.

Section Spec.
Context {V F B : Type}.

(** What the water is driven by: values at the boundaries, wind, the gradient of
    the atmospheric pressure and the two sources. *)
Record drivers := mk_drivers
  { d_bnd : nat -> @rbnd B; d_wind : option (V -> R * R); d_patm : option (V -> R * R);
    d_msource : option (V -> R * R); d_vsource : option (V -> R) }.

(** The equations [E] with these drivers. *)
Definition driven (E : swe_env V F B) (d : drivers) : swe_env V F B :=
  mk_env (e_mesh E) (e_g E) (e_rho0 E) (e_depth E) (e_bath_v E) (e_bath_f E) (e_bath_b E) (e_len E)
    (d_bnd d) (e_drag_b E) (e_eta_dg E) (e_u_jump E) (e_nonlinear E) (e_lax E) (e_nu E) (e_grad_div E)
    (e_grad_depth E) (e_sigma_f E) (e_sigma_b E) (e_grad_h E) (e_coriolis E) (d_wind d) (d_patm d)
    (e_quad E) (e_manning E) (e_nikuradse E) (e_kappa E) (e_smoother E) (e_linear E) (e_drag3d E)
    (d_msource d) (d_vsource d) (e_farms E).

(** Linear equations: use_nonlinear_equations is off, so that the depth is the
    one of the bed; no drag that depends on the speed of the water. *)
Definition linear_equations (E : swe_env V F B) : Prop :=
  e_nonlinear E = false /\ (forall b e e', e_depth E b e = e_depth E b e') /\
  e_manning E = None /\ e_quad E = None /\ e_nikuradse E = None /\
  (forall k, e_drag_b E k = None) /\ e_farms E = nil /\ e_drag3d E = None.

(** Conditions of the same kind at a boundary, with combined values. *)
Definition mixed_uv (a b : R) (u u1 u2 : @uvext B) : Prop :=
  match u, u1, u2 with
  | USym, USym, USym => True
  | UGiven g, UGiven g1, UGiven g2 => mixed2 a b g g1 g2
  | UNormal g, UNormal g1, UNormal g2 => forall x, g x = a * g1 x + b * g2 x
  | UFlux g, UFlux g1, UFlux g2 => forall x, g x = a * g1 x + b * g2 x
  | _, _, _ => False
  end.
Definition mixed_rbnd (a b : R) (r r1 r2 : @rbnd B) : Prop :=
  match r, r1, r2 with
  | Closed, Closed, Closed => True
  | Open e, Open e1, Open e2 =>
      mixed a b (ex_eta e) (ex_eta e1) (ex_eta e2) /\ mixed_uv a b (ex_uv e) (ex_uv e1) (ex_uv e2) /\
      mixed a b (ex_un e) (ex_un e1) (ex_un e2)
  | _, _, _ => False
  end.

Definition mixed_drivers (a b : R) (d d1 d2 : drivers) : Prop :=
  (forall m, mixed_rbnd a b (d_bnd d m) (d_bnd d1 m) (d_bnd d2 m)) /\
  mixed2 a b (given2 (d_wind d)) (given2 (d_wind d1)) (given2 (d_wind d2)) /\
  mixed2 a b (given2 (d_patm d)) (given2 (d_patm d1)) (given2 (d_patm d2)) /\
  mixed2 a b (given2 (d_msource d)) (given2 (d_msource d1)) (given2 (d_msource d2)) /\
  (forall p, given (d_vsource d) p = a * given (d_vsource d1) p + b * given (d_vsource d2) p).
End Spec.
Arguments drivers : clear implicits.
