(** What the properties C47, C49-C51 speak about, independently of the terms. *)
From Coq Require Import Reals List Bool.
From Verif Require Import Forms_Model.
Import ListNotations.
Open Scope R_scope.

Section Spec.
Context {V F B : Type}.

(** The divergence theorem on the mesh for one vector field given by its
    divergence, its normal values on both sides of the interior facets and its
    normal value at the boundary. It holds for every piecewise polynomial field
    that the quadrature integrates exactly. *)
Definition gauss (M : mesh V F B) (div : V -> R) (nf : F -> bool -> R) (nb : B -> R) : Prop :=
  dx M div = dS M (fun f => nf f true + nf f false) + ds M nb.

(** ... for a vector function. *)
Definition gauss_v (M : mesh V F B) (u : vfield V F B) : Prop :=
  gauss M (divv u) (fun f s => dot2 (vf u f s) (normal M f s)) (unb M u).

(** ... for the product of a scalar and a vector function. *)
Definition gauss_sv (M : mesh V F B) (q : sfield V F B) (u : vfield V F B) : Prop :=
  gauss M (fun p => s_v q p * divv u p + dot2 (vv u p) (s_gv q p))
    (fun f s => s_f q f s * dot2 (vf u f s) (normal M f s))
    (fun b => s_b q b * unb M u b).

(** ... for |u|^2 a / 2. *)
Definition gauss_kin (M : mesh V F B) (u a : vfield V F B) : Prop :=
  gauss M (fun p => 0.5 * dot2 (vv u p) (vv u p) * divv a p
                    + (fst (vv u p) * dot2 (vv a p) (s_gv (v_x u) p)
                       + snd (vv u p) * dot2 (vv a p) (s_gv (v_y u) p)))
    (fun f s => 0.5 * dot2 (vf u f s) (vf u f s) * dot2 (vf a f s) (normal M f s))
    (fun b => 0.5 * dot2 (vb u b) (vb u b) * unb M a b).

(** The constant function with value [c], and the zero vector function. *)
Definition const_s (c : R) : sfield V F B :=
  mk_s (fun _ => c) (fun _ => (0, 0)) (fun _ _ => c) (fun _ _ => (0, 0))
       (fun _ => c) (fun _ => (0, 0)).
Definition const_v (a b : R) : vfield V F B := mk_vf (const_s a) (const_s b).
Definition zero_v : vfield V F B := const_v 0 0.

(** Scaling a function. *)
Definition scale_s (k : R) (q : sfield V F B) : sfield V F B :=
  mk_s (fun p => k * s_v q p) (fun p => scal2 k (s_gv q p))
       (fun f s => k * s_f q f s) (fun f s => scal2 k (s_gf q f s))
       (fun b => k * s_b q b) (fun b => scal2 k (s_gb q b)).
Definition scale_v (k : R) (u : vfield V F B) : vfield V F B :=
  mk_vf (scale_s k (v_x u)) (scale_s k (v_y u)).

(** A piecewise constant function (P0): no gradient inside the cells. *)
Definition flat_s (q : sfield V F B) : Prop :=
  (forall p, s_gv q p = (0, 0)) /\ (forall f s, s_gf q f s = (0, 0)) /\
  (forall b, s_gb q b = (0, 0)).

(** Every boundary is a wall. *)
Definition all_closed (E : swe_env V F B) : Prop :=
  forall k, e_bnd E k = Closed.

(** An open boundary compatible with water at rest at level [c]. *)
Definition at_rest_bnd (c : R) (r : @rbnd B) : Prop :=
  match r with
  | Closed => True
  | Open e =>
      (forall h, ex_eta e = Some h -> forall b, h b = c) /\
      match ex_uv e with
      | USym => True
      | UGiven u => forall b, u b = (0, 0)
      | UNormal u => forall b, u b = 0
      | UFlux q => forall b, q b = 0
      end /\
      (forall un, ex_un e = Some un -> forall b, un b = 0)
  end.

(** No wind, no atmospheric pressure gradient, no sources, water at rest in the
    3D mode as well. *)
Definition unforced (E : swe_env V F B) : Prop :=
  (forall t, e_wind E = Some t -> forall p, t p = (0, 0)) /\
  (forall gp, e_patm_grad E = Some gp -> forall p, gp p = (0, 0)) /\
  (forall t, e_msource E = Some t -> forall p, t p = (0, 0)) /\
  (forall s, e_vsource E = Some s -> forall p, s p = 0) /\
  (forall cd ub, e_drag3d E = Some (cd, ub) -> forall p, ub p = (0, 0)).

(** Quadrature weights are positive (all rules used are). *)
Definition positive_weights (M : mesh V F B) : Prop :=
  (forall p, In p (m_cells M) -> 0 < m_wv M p) /\
  (forall f, In f (m_facets M) -> 0 < m_wf M f) /\
  (forall b, In b (m_bnds M) -> 0 < m_wb M b).

Definition unit_normals (M : mesh V F B) : Prop :=
  (forall f, In f (m_facets M) -> dot2 (m_nf M f) (m_nf M f) = 1) /\
  (forall b, In b (m_bnds M) -> dot2 (m_nb M b) (m_nb M b) = 1).
End Spec.
