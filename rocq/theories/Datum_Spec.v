(** C93: the level from which elevations and depths are measured. *)
From Coq Require Import Reals List Bool.
From Verif Require Import Forms_Model Forms_Spec Galerkin_Model.
Import ListNotations.
Open Scope R_scope.

Section Datum.
Context {V F B : Type}.
Variable c : R.

(** The same surface measured from a level lower by [c]: all elevations are larger by [c]. *)
Definition lift_s (q : sfield V F B) : sfield V F B :=
  mk_s (fun p => s_v q p + c) (s_gv q) (fun f s => s_f q f s + c) (s_gf q) (fun b => s_b q b + c) (s_gb q).
(** ... at an open boundary, if an elevation is given there. *)
Definition lift_ext (e : @extern B) : @extern B :=
  mk_ext (option_map (fun h b => h b + c) (ex_eta e)) (ex_uv e) (ex_un e).
Definition lift_bnd (e : @rbnd B) : @rbnd B := match e with Closed => Closed | Open e => Open (lift_ext e) end.
(** The same problem measured from the lower level: the bathymetry (depth of the bed below
    the level) is smaller by [c], the elevations given at the boundary are larger by [c];
    everything else is the same. *)
Definition datum_env (E : swe_env V F B) : swe_env V F B :=
  mk_env (e_mesh E) (e_g E) (e_rho0 E) (e_depth E)
    (fun p => e_bath_v E p - c) (fun f s => e_bath_f E f s - c) (fun b => e_bath_b E b - c) (e_len E)
    (fun m => lift_bnd (e_bnd E m)) (e_drag_b E) (e_eta_dg E) (e_u_jump E) (e_nonlinear E) (e_lax E)
    (e_nu E) (e_grad_div E) (e_grad_depth E) (e_sigma_f E) (e_sigma_b E) (e_grad_h E)
    (e_coriolis E) (e_wind E) (e_patm_grad E) (e_quad E) (e_manning E) (e_nikuradse E) (e_kappa E) (e_smoother E)
    (e_linear E) (e_drag3d E) (e_msource E) (e_vsource E) (e_farms E).
Definition lift_tbnd (t : @tbnd B) : @tbnd B :=
  mk_tb (tb_value t) (tb_uv t) (option_map (fun h b => h b + c) (tb_elev t)) (tb_diff_flux t).
Definition datum_tenv (T : tracer_env V F B) : tracer_env V F B :=
  mk_tenv (t_dg T) (t_lax T) (fun m => option_map lift_tbnd (t_bnd T m)) (t_mu T) (t_sigma_f T) (t_source T) (t_sign0 T).

(** The water depth is a function of the distance between bed and surface. *)
Definition surface_depth (E : swe_env V F B) : Prop :=
  forall b h k, e_depth E (b - k) (h + k) = e_depth E b h.

(** Two states which differ by the level only. *)
Definition same_water (W : space) (u u' : dof -> R) : Prop :=
  uv_of W u' = uv_of W u /\ eta_of W u' = lift_s (eta_of W u).
End Datum.
