(** C92: symmetric problems. A symmetry of a mesh (a reflection, a rotation) takes every
    point to another point of the mesh. A function is moved by it: its value at a point
    is the one it had at the point taken there, and vectors are turned with it. *)
From Coq Require Import Reals List Bool Permutation.
From Verif Require Import Forms_Model Forms_Spec Galerkin_Model Frame_Spec.
Import ListNotations.
Open Scope R_scope.

(** ** The same problem with the points and the boundary markers named otherwise *)
Record naming (V F B V' F' B' : Type) := mk_naming
  { r_v : V' -> V; r_v' : V -> V'; r_f : F' -> F; r_f' : F -> F'; r_b : B' -> B; r_b' : B -> B';
    r_m : nat -> nat; r_m' : nat -> nat }.
Arguments mk_naming {V F B V' F' B'}.
Arguments r_v {V F B V' F' B'}. Arguments r_v' {V F B V' F' B'}.
Arguments r_f {V F B V' F' B'}. Arguments r_f' {V F B V' F' B'}.
Arguments r_b {V F B V' F' B'}. Arguments r_b' {V F B V' F' B'}.
Arguments r_m {V F B V' F' B'}. Arguments r_m' {V F B V' F' B'}.

Section Naming.
Context {V F B V' F' B' : Type}.
Variable r : naming V F B V' F' B'.

(** Each point and each marker has a new name. *)
Definition faithful : Prop :=
  (forall p, r_v r (r_v' r p) = p) /\ (forall f, r_f r (r_f' r f) = f) /\ (forall b, r_b r (r_b' r b) = b) /\
  (forall m, r_m r (r_m' r m) = m).

Definition ren_s (q : sfield V F B) : sfield V' F' B' :=
  mk_s (fun p => s_v q (r_v r p)) (fun p => s_gv q (r_v r p)) (fun f => s_f q (r_f r f)) (fun f => s_gf q (r_f r f))
       (fun b => s_b q (r_b r b)) (fun b => s_gb q (r_b r b)).
Definition ren_v (u : vfield V F B) : vfield V' F' B' := mk_vf (ren_s (v_x u)) (ren_s (v_y u)).
Definition ren_mesh (M : mesh V F B) : mesh V' F' B' :=
  mk_mesh (map (r_v' r) (m_cells M)) (fun p => m_wv M (r_v r p))
          (map (r_f' r) (m_facets M)) (fun f => m_wf M (r_f r f)) (fun f => m_nf M (r_f r f))
          (map (r_b' r) (m_bnds M)) (fun b => m_wb M (r_b r b)) (fun b => m_nb M (r_b r b)) (fun b => r_m' r (m_marker M (r_b r b))).
Definition at_v {X} (g : V -> X) : V' -> X := fun p => g (r_v r p).
Definition at_b {X} (g : B -> X) : B' -> X := fun b => g (r_b r b).
Definition ren_uvext (e : @uvext B) : @uvext B' :=
  match e with USym => USym | UGiven g => UGiven (at_b g) | UNormal g => UNormal (at_b g) | UFlux g => UFlux (at_b g) end.
Definition ren_ext (e : @extern B) : @extern B' := mk_ext (option_map at_b (ex_eta e)) (ren_uvext (ex_uv e)) (option_map at_b (ex_un e)).
Definition ren_bnd (e : @rbnd B) : @rbnd B' := match e with Closed => Closed | Open e => Open (ren_ext e) end.
Definition ren_env (E : swe_env V F B) : swe_env V' F' B' :=
  mk_env (ren_mesh (e_mesh E)) (e_g E) (e_rho0 E) (e_depth E)
    (at_v (e_bath_v E)) (fun f => e_bath_f E (r_f r f)) (at_b (e_bath_b E)) (fun m => e_len E (r_m r m))
    (fun m => ren_bnd (e_bnd E (r_m r m))) (fun m => option_map at_b (e_drag_b E (r_m r m))) (e_eta_dg E) (e_u_jump E) (e_nonlinear E) (e_lax E)
    (option_map ren_s (e_nu E)) (e_grad_div E) (e_grad_depth E)
    (fun f => e_sigma_f E (r_f r f)) (at_b (e_sigma_b E)) (at_v (e_grad_h E))
    (option_map at_v (e_coriolis E)) (option_map at_v (e_wind E)) (option_map at_v (e_patm_grad E))
    (option_map at_v (e_quad E)) (option_map at_v (e_manning E)) (option_map at_v (e_nikuradse E)) (e_kappa E) (e_smoother E)
    (option_map at_v (e_linear E)) (option_map (fun cu => (at_v (fst cu), at_v (snd cu))) (e_drag3d E))
    (option_map at_v (e_msource E)) (option_map at_v (e_vsource E))
    (map (fun farm => match farm with
                      | (pts, wt, density, ct) => (map (r_v' r) pts, at_v wt, at_v density, ct)
                      end) (e_farms E)).
Definition ren_tbnd (t : @tbnd B) : @tbnd B' :=
  mk_tb (option_map at_b (tb_value t)) (ren_uvext (tb_uv t)) (option_map at_b (tb_elev t)) (option_map at_b (tb_diff_flux t)).
Definition ren_tenv (T : tracer_env V F B) : tracer_env V' F' B' :=
  mk_tenv (t_dg T) (option_map (fun ls => (fst ls, fun f => snd ls (r_f r f))) (t_lax T))
          (fun m => option_map ren_tbnd (t_bnd T (r_m r m))) (option_map ren_s (t_mu T))
          (fun f => t_sigma_f T (r_f r f)) (option_map at_v (t_source T)) (t_sign0 T).
End Naming.

(** ** Symmetries *)
(** The points move as [r] says, the axes (and the names of the sides) as [w] says. *)
Section Symmetry.
Context {V F B : Type}.
Variable r : naming V F B V F B.
Variable w : view V F B.

Definition moved_s (q : sfield V F B) : sfield V F B := turn_s w (ren_s r q).
Definition moved_v (u : vfield V F B) : vfield V F B := turn_v w (ren_v r u).

(** The problem is the same after the move: mesh, bathymetry, forcing, boundary
    conditions, friction, Coriolis parameter (which changes its sign in a reflection),
    turbines, ... *)
Definition symmetric_swe (E : swe_env V F B) : Prop := turn_env w (ren_env r E) = E.
Definition symmetric_tracer (T : tracer_env V F B) : Prop := turn_tenv w (ren_tenv r T) = T.

(** Basis functions are moved to basis functions; those of the velocity perhaps with the
    opposite sign. [pe], [pu] say to which, [qe], [qu] from which. *)
Record dof_map := mk_dm { pe : nat -> nat; qe : nat -> nat; pu : nat -> nat; qu : nat -> nat; su : nat -> R }.
Definition permutes (n : nat) (p q : nat -> nat) : Prop :=
  Permutation (map p (seq 0 n)) (seq 0 n) /\ forall i, (i < n)%nat -> q (p i) = i.
Definition symmetric_space (d : dof_map) (W : space) : Prop :=
  permutes (n_eta W) (pe d) (qe d) /\ permutes (n_uv W) (pu d) (qu d) /\
  (forall i, (i < n_eta W)%nat -> moved_s (phi W i) = phi W (pe d i)) /\
  (forall j, (j < n_uv W)%nat -> moved_v (psi W j) = scale_v (su d j) (psi W (pu d j))) /\
  (forall j, (j < n_uv W)%nat -> su d j = 1 \/ su d j = -1).
Definition symmetric_tspace (p q : nat -> nat) (W : tspace) : Prop :=
  permutes (n_c W) p q /\ (forall i, (i < n_c W)%nat -> moved_s (chi W i) = chi W (p i)).
End Symmetry.

(** A state of the model is symmetric if it is not changed by the move. *)
Definition symmetric_state {V F B} (r : naming V F B V F B) (w : view V F B) (W : space) (u : dof -> R) : Prop :=
  moved_v r w (uv_of W u) = uv_of W u /\ moved_s r w (eta_of W u) = eta_of W u.
Definition symmetric_conc {V F B} (r : naming V F B V F B) (w : view V F B) (W : tspace) (c : nat -> R) : Prop :=
  moved_s r w (tracer_of W c) = tracer_of W c.
