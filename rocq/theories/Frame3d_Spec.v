(** C89, three dimensions: two descriptions of one problem on an extruded mesh. The
    vertical stays the vertical; the horizontal axes, the names of the sides of facets and
    the order of visits may change (Frame_Spec.v). *)
From Coq Require Import Reals List Bool Permutation.
From Verif Require Import Frame_Spec Forms_Model Forms3d_Model Mom3d_Model.
Open Scope R_scope.

Section Frame3d.
Context {V F E : Type}.
Variable w : view V F E.
Notation Q := (w_q w).

Definition act3 (v : v3) : v3 := V3 (qa Q * c0 v + qb Q * c1 v) (qc Q * c0 v + qd Q * c1 v) (c2 v).

Definition turn_s3 (q : sfield3 V F E) : sfield3 V F E :=
  mk_s3 (a_v q) (fun p => act3 (a_gv q p))
        (fun f s => a_f q f (old w f s)) (fun f s => act3 (a_gf q f (old w f s)))
        (a_e q) (fun e => act3 (a_ge q e)).
(** [a] times one function plus [b] times another *)
Definition mix3 (a b : R) (q r : sfield3 V F E) : sfield3 V F E :=
  mk_s3 (fun p => a * a_v q p + b * a_v r p) (fun p => add3 (scal3 a (a_gv q p)) (scal3 b (a_gv r p)))
        (fun f s => a * a_f q f s + b * a_f r f s) (fun f s => add3 (scal3 a (a_gf q f s)) (scal3 b (a_gf r f s)))
        (fun e => a * a_e q e + b * a_e r e) (fun e => add3 (scal3 a (a_ge q e)) (scal3 b (a_ge r e))).
Definition turn_v3 (u : vfield3 V F E) : vfield3 V F E :=
  mk_vf3 (mix3 (qa Q) (qb Q) (turn_s3 (w_x u)) (turn_s3 (w_y u)))
         (mix3 (qc Q) (qd Q) (turn_s3 (w_x u)) (turn_s3 (w_y u)))
         (turn_s3 (w_z u)).
Definition turn_mesh3 (M : mesh3 V F E) : mesh3 V F E :=
  mk_mesh3 (w_ov w (g_cells M)) (g_wv M) (w_of w (g_hor M)) (w_of w (g_ver M)) (g_wf M)
           (fun f => act3 (nrm M f (old w f true)))
           (w_ob w (g_surf M)) (w_ob w (g_bot M)) (w_ob w (g_lat M)) (g_we M) (fun e => act3 (g_ne M e)) (g_marker M).

(** The tracer equation: velocities have new components. *)
Definition turn_xuv (x : uvext3 (E:=E)) : uvext3 (E:=E) :=
  match x with XSym => XSym | XUv g => XUv (fun e => act3 (g e)) | XUn g => XUn g end.
Definition turn_tb3 (t : tb3 E) : tb3 E := mk_tb3 (x_value t) (turn_xuv (x_uv t)).
Definition turn_tenv3 (K : tenv3 V F E) : tenv3 V F E :=
  mk_tenv3 (k_hdg K) (k_vdg K) (k_symm K) (k_lax K)
    (option_map turn_v3 (k_uv K)) (option_map turn_v3 (k_dav K))
    (option_map turn_s3 (k_w K)) (option_map turn_s3 (k_wmesh K))
    (option_map turn_s3 (k_muh K)) (option_map turn_s3 (k_muv K))
    (turn_side w (k_sigh K)) (turn_side w (k_sigv K)) (k_sipgh K) (k_sipgv K)
    (k_source K) (fun m => option_map turn_tb3 (k_bnd K m)) (k_sign0 K).

(** The momentum equation: the wind, sources, the internal pressure gradient and prescribed
    velocities have new components; a reflection changes the sign of the Coriolis parameter. *)
Definition turn_mbnd (b : mbnd E) : mbnd E :=
  match b with MSymm => MSymm | MUv g => MUv (fun e => act3 (g e)) | MUn g => MUn g end.
Definition turn_menv (K : menv3 V F E) : menv3 V F E :=
  mk_menv3 (m_nonlin K) (m_hdg K) (m_vdg K) (m_lax K) (option_map turn_v3 (m_dav K))
    (option_map turn_s3 (m_w K)) (option_map turn_s3 (m_wmesh K))
    (option_map turn_s3 (m_muh K)) (option_map turn_s3 (m_muv K))
    (turn_side w (m_sigh K)) (turn_side w (m_sigv K)) (m_sipgh K) (m_sipgv K)
    (m_friction K) (m_quad K) (m_z0 K) (m_velem K) (m_kappa K) (m_linear K)
    (option_map (fun f p => det Q * f p) (m_coriolis K))
    (option_map (fun t e => act3 (t e)) (m_wind K)) (m_rho0 K)
    (option_map (fun s p => act3 (s p)) (m_source K)) (option_map (fun g p => act3 (g p)) (m_intpg K))
    (fun m => option_map turn_mbnd (m_bnd K m)) (m_sign0 K).

(** The horizontal velocity has no third component (as in the program), or sign(0) is 0. *)
Definition horizontal_uv (K : tenv3 V F E) : Prop :=
  k_sign0 K = 0 \/ forall u f s, full_uv K = Some u -> a_f (w_z u) f s = 0.
End Frame3d.
