(** C85: the variance of a tracer and the flows it is about. *)
From Coq Require Import Reals List Bool.
From Verif Require Import Forms_Model Forms_Spec Galerkin_Model P_Tracer2d P_Galerkin.
Open Scope R_scope.

Section Spec.
Context {V F B : Type}.
Local Notation tcase := (@tcase V F B).

(** The integral of the square of the tracer, and of the difference of two. *)
Definition variance (W : @tspace V F B) (M : mesh V F B) (c : nat -> R) : R :=
  dx M (fun p => s_v (tracer_of W c) p * s_v (tracer_of W c) p).
Definition spread (W : @tspace V F B) (M : mesh V F B) (c c' : nat -> R) : R :=
  variance W M (fun i => c i - c' i).

(** The same flow with zero in place of the values and fluxes given at the
    boundaries, and without a source. *)
Definition no_data_bnd (tb : @tbnd B) : @tbnd B :=
  mk_tb (option_map (fun _ _ => 0) (tb_value tb)) (tb_uv tb) (tb_elev tb)
        (option_map (fun _ _ => 0) (tb_diff_flux tb)).
Definition no_data_env (T : tracer_env V F B) : tracer_env V F B :=
  mk_tenv (t_dg T) (t_lax T) (fun m => option_map no_data_bnd (t_bnd T m)) (t_mu T) (t_sigma_f T)
          None (t_sign0 T).
Definition no_data (k : tcase) : tcase :=
  mk_tcase (tc_E k) (no_data_env (tc_T k)) (tc_uv k) (tc_elev k) (fun _ => (0, 0)).

(** The divergence theorem for half the squared tracer times the velocity. *)
Definition gauss_square (W : @tspace V F B) (M : mesh V F B) (u : vfield V F B) : Prop :=
  forall c, let q := tracer_of W c in
  gauss M (fun p => 1/2 * (s_v q p * s_v q p) * divv u p + s_v q p * dot2 (vv u p) (s_gv q p))
    (fun f s => 1/2 * (s_f q f s * s_f q f s) * dot2 (vf u f s) (normal M f s))
    (fun b => 1/2 * (s_b q b * s_b q b) * unb M u b).

(** The velocity has a continuous normal component, and the tracer is either
    discontinuous with upwinding or continuous. *)
Definition transport (W : @tspace V F B) (M : mesh V F B) (k : tcase) : Prop :=
  e_mesh (tc_E k) = M /\ normal_continuous (tc_E k) (tc_uv k) /\ gauss_square W M (tc_uv k) /\
  (t_dg (tc_T k) = true \/
   forall c f, In f (m_facets M) -> s_f (tracer_of W c) f true = s_f (tracer_of W c) f false) /\
  match t_lax (tc_T k) with
  | Some (lf, speed) => 0 <= lf /\ forall f, In f (m_facets M) -> 0 <= speed f
  | None => True
  end.

(** Where water comes in the tracer has a given value; the velocity given for the
    tracer at a boundary has the normal component of the water. *)
Definition fed_inflow (M : mesh V F B) (k : tcase) : Prop :=
  forall b, In b (m_bnds M) ->
  match t_bnd (tc_T k) (m_marker M b) with
  | None => 0 <= unb M (tc_uv k) b
  | Some tb =>
      dot2 (tuv_ext (tc_E k) tb (s_b (tc_elev k)) (vb (tc_uv k)) b) (m_nb M b) = unb M (tc_uv k) b /\
      (tb_value tb = None -> 0 <= unb M (tc_uv k) b)
  end.

(** Diffusivity is not negative, the flux through each boundary is given (zero if
    nothing is said) and the penalty is as large as it has to be. *)
Definition proper_diffusion (W : @tspace V F B) (M : mesh V F B) (k : tcase) : Prop :=
  forall mu, t_mu (tc_T k) = Some mu ->
    (forall m tb, t_bnd (tc_T k) m = Some tb -> tb_diff_flux tb <> None) /\
    (forall p, 0 <= s_v mu p) /\
    (forall f, In f (m_facets M) -> 0 < psig (tc_T k) f /\ 0 < avg (s_f mu f)) /\
    (t_dg (tc_T k) = true -> forall c,
       dS M (fun f => dot2 (mean_flux mu (tracer_of W c) f) (mean_flux mu (tracer_of W c) f)
                      / (psig (tc_T k) f * avg (s_f mu f)))
       <= dx M (fun p => s_v mu p * dot2 (s_gv (tracer_of W c) p) (s_gv (tracer_of W c) p))).

(** The water does not converge or diverge. *)
Definition divergence_free (M : mesh V F B) (k : tcase) : Prop :=
  forall p, In p (m_cells M) -> divv (tc_uv k) p = 0.

(** The basis functions are independent. *)
Definition tindependent (W : @tspace V F B) (M : mesh V F B) : Prop :=
  forall c, variance W M c = 0 -> forall i, (i < n_c W)%nat -> c i = 0.
End Spec.
