(** C95: basins in one mesh which no facet connects. *)
From Coq Require Import Reals List Bool.
From Verif Require Import Forms_Model Forms_Spec Galerkin_Model.
Import ListNotations.
Open Scope R_scope.

(** The points of cells, interior facets and boundary facets that belong to the basin. *)
Record basin (V F B : Type) := mk_basin { in_v : V -> bool; in_f : F -> bool; in_b : B -> bool }.
Arguments mk_basin {V F B}. Arguments in_v {V F B}. Arguments in_f {V F B}. Arguments in_b {V F B}.

Section Basin.
Context {V F B : Type}.
Variable P : basin V F B.

(** The mesh of the basin alone, and the same problem on it. *)
Definition mesh_of (M : mesh V F B) : mesh V F B :=
  mk_mesh (filter (in_v P) (m_cells M)) (m_wv M) (filter (in_f P) (m_facets M)) (m_wf M) (m_nf M)
          (filter (in_b P) (m_bnds M)) (m_wb M) (m_nb M) (m_marker M).
Definition env_of (E : swe_env V F B) : swe_env V F B :=
  mk_env (mesh_of (e_mesh E)) (e_g E) (e_rho0 E) (e_depth E)
    (e_bath_v E) (e_bath_f E) (e_bath_b E) (e_len E)
    (e_bnd E) (e_drag_b E) (e_eta_dg E) (e_u_jump E) (e_nonlinear E) (e_lax E)
    (e_nu E) (e_grad_div E) (e_grad_depth E) (e_sigma_f E) (e_sigma_b E) (e_grad_h E)
    (e_coriolis E) (e_wind E) (e_patm_grad E) (e_quad E) (e_manning E) (e_nikuradse E) (e_kappa E) (e_smoother E)
    (e_linear E) (e_drag3d E) (e_msource E) (e_vsource E)
    (map (fun farm => match farm with (pts, wt, density, ct) => (filter (in_v P) pts, wt, density, ct) end) (e_farms E)).

(** A function as it is in the basin, and nothing elsewhere. *)
Definition cut_s (q : sfield V F B) : sfield V F B :=
  mk_s (fun p => if in_v P p then s_v q p else 0) (fun p => if in_v P p then s_gv q p else (0, 0))
       (fun f s => if in_f P f then s_f q f s else 0) (fun f s => if in_f P f then s_gf q f s else (0, 0))
       (fun b => if in_b P b then s_b q b else 0) (fun b => if in_b P b then s_gb q b else (0, 0)).
Definition cut_v (u : vfield V F B) : vfield V F B := mk_vf (cut_s (v_x u)) (cut_s (v_y u)).
Definition zero_s : sfield V F B := const_s 0.

(** The first [ne] elevation and [nu] velocity basis functions live in the basin, the
    others outside of it: no function is non-zero on both sides. *)
Definition separated (W : @space V F B) (ne nu : nat) : Prop :=
  (ne <= n_eta W)%nat /\ (nu <= n_uv W)%nat /\
  (forall i, (i < ne)%nat -> cut_s (phi W i) = phi W i) /\
  (forall i, (ne <= i < n_eta W)%nat -> cut_s (phi W i) = zero_s) /\
  (forall j, (j < nu)%nat -> cut_v (psi W j) = psi W j) /\
  (forall j, (nu <= j < n_uv W)%nat -> cut_v (psi W j) = mk_vf zero_s zero_s).
(** The space of the basin alone. *)
Definition space_of (W : @space V F B) (ne nu : nat) : @space V F B := mk_space ne (phi W) nu (psi W).

(** [u1] is the state of the basin when the whole domain has the state [u]. *)
Definition part_of (W W1 : @space V F B) (u u1 : dof -> R) : Prop :=
  uv_of W1 u1 = cut_v (uv_of W u) /\ eta_of W1 u1 = cut_s (eta_of W u).
End Basin.
