(** C89: two descriptions of one problem. The same mesh can be described with other
    coordinate axes, with the two sides of a facet named the other way round, and with
    its points visited in another order (as happens when it is numbered or partitioned
    differently). *)
From Coq Require Import Reals List Bool Permutation.
From Verif Require Import Forms_Model Forms_Spec Galerkin_Model.
Open Scope R_scope.

(** An orthogonal matrix (a rotation, or a rotation and a reflection). *)
Record axes := mk_axes { qa : R; qb : R; qc : R; qd : R }.
Definition act (Q : axes) (v : R * R) : R * R := (qa Q * fst v + qb Q * snd v, qc Q * fst v + qd Q * snd v).
Definition orthogonal (Q : axes) : Prop :=
  qa Q * qa Q + qc Q * qc Q = 1 /\ qb Q * qb Q + qd Q * qd Q = 1 /\ qa Q * qb Q + qc Q * qd Q = 0.
Definition det (Q : axes) : R := qa Q * qd Q - qb Q * qc Q.
Definition transpose (Q : axes) : axes := mk_axes (qa Q) (qc Q) (qb Q) (qd Q).

Section Frame.
Context {V F B : Type}.

Record view := mk_view
  { w_q : axes;                          (* the new axes *)
    w_swap : F -> bool;                  (* facets whose sides change their names *)
    w_ov : list V -> list V; w_of : list F -> list F; w_ob : list B -> list B }.   (* order of visits *)
Definition proper (w : view) : Prop :=
  orthogonal (w_q w) /\ (forall l, Permutation (w_ov w l) l) /\ (forall l, Permutation (w_of w l) l)
  /\ (forall l, Permutation (w_ob w l) l).

Variable w : view.
Notation Q := (w_q w).
(** the old name of a side *)
Definition old (f : F) (side : bool) : bool := xorb (w_swap w f) side.

(** scalar functions: the values are the same, gradients have new components *)
Definition turn_s (q : sfield V F B) : sfield V F B :=
  mk_s (s_v q) (fun p => act Q (s_gv q p))
       (fun f s => s_f q f (old f s)) (fun f s => act Q (s_gf q f (old f s)))
       (s_b q) (fun b => act Q (s_gb q b)).
(** vector functions have new components *)
Definition turn_v (u : vfield V F B) : vfield V F B :=
  mk_vf (add_s (scale_s (qa Q) (turn_s (v_x u))) (scale_s (qb Q) (turn_s (v_y u))))
        (add_s (scale_s (qc Q) (turn_s (v_x u))) (scale_s (qd Q) (turn_s (v_y u)))).
Definition turn_mesh (M : mesh V F B) : mesh V F B :=
  mk_mesh (w_ov w (m_cells M)) (m_wv M)
          (w_of w (m_facets M)) (m_wf M) (fun f => act Q (normal M f (old f true)))
          (w_ob w (m_bnds M)) (m_wb M) (fun b => act Q (m_nb M b)) (m_marker M).

Definition turn_uvext (e : uvext) : uvext :=
  match e with
  | USym => USym
  | UGiven g => UGiven (fun b : B => act Q (g b))
  | UNormal g => UNormal g
  | UFlux g => UFlux g
  end.
Definition turn_ext (e : extern) : extern := mk_ext (ex_eta e) (turn_uvext (ex_uv e)) (ex_un e).
Definition turn_bnd (r : rbnd) : rbnd := match r with Closed => Closed | Open e => Open (turn_ext e) end.
Definition turn_pt (g : V -> R * R) : V -> R * R := fun p => act Q (g p).
Definition turn_side (g : F -> bool -> R) : F -> bool -> R := fun f s => g f (old f s).

(** The shallow water equations: forces, pressure and depth gradients and prescribed
    velocities have new components; the Coriolis parameter changes its sign when the
    axes are reflected; the thrust of a turbine is that of the same velocity. *)
Definition turn_env (E : swe_env V F B) : swe_env V F B :=
  mk_env (turn_mesh (e_mesh E)) (e_g E) (e_rho0 E) (e_depth E)
    (e_bath_v E) (turn_side (e_bath_f E)) (e_bath_b E) (e_len E)
    (fun m => turn_bnd (e_bnd E m)) (e_drag_b E) (e_eta_dg E) (e_u_jump E) (e_nonlinear E) (e_lax E)
    (option_map turn_s (e_nu E)) (e_grad_div E) (e_grad_depth E)
    (turn_side (e_sigma_f E)) (e_sigma_b E) (turn_pt (e_grad_h E))
    (option_map (fun c p => det Q * c p) (e_coriolis E))
    (option_map turn_pt (e_wind E)) (option_map turn_pt (e_patm_grad E))
    (e_quad E) (e_manning E) (e_nikuradse E) (e_kappa E) (e_smoother E) (e_linear E)
    (option_map (fun cu => (fst cu, turn_pt (snd cu))) (e_drag3d E))
    (option_map turn_pt (e_msource E)) (e_vsource E)
    (map (fun farm => match farm with
                      | (pts, wt, density, ct) => (w_ov w pts, wt, density, fun v h => ct (act (transpose Q) v) h)
                      end) (e_farms E)).

Definition turn_tbnd (t : tbnd) : tbnd := mk_tb (tb_value t) (turn_uvext (tb_uv t)) (tb_elev t) (tb_diff_flux t).
Definition turn_tenv (T : tracer_env V F B) : tracer_env V F B :=
  mk_tenv (t_dg T) (t_lax T) (fun m => option_map turn_tbnd (t_bnd T m)) (option_map turn_s (t_mu T))
          (turn_side (t_sigma_f T)) (t_source T) (t_sign0 T).

(** The mean velocity crosses a facet, or no water crosses it on either side, or sign(0) is 0. *)
Definition upwind_clear (E : swe_env V F B) (T : tracer_env V F B) (uv : vfield V F B) : Prop :=
  t_sign0 T = 0 \/
  forall f, In f (m_facets (e_mesh E)) -> w_swap w f = true ->
    un_av E uv f <> 0 \/ forall s, dot2 (vf uv f s) (normal (e_mesh E) f s) = 0.

(** finite element spaces: the same basis functions *)
Definition turn_space (W : space) : space :=
  mk_space (n_eta W) (fun i => turn_s (phi W i)) (n_uv W) (fun j => turn_v (psi W j)).
Definition turn_tspace (W : tspace) : tspace := mk_tspace (n_c W) (fun i => turn_s (chi W i)).
End Frame.
Arguments view : clear implicits.
