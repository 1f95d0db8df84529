(** C84: the energy of linear waves and the equations it is about. *)
From Coq Require Import Reals List Bool.
From Verif Require Import Forms_Model Forms_Spec Galerkin_Model.
Open Scope R_scope.

Section Spec.
Context {V F B : Type}.

(** Kinetic plus potential energy of the water (per unit density) for the
    gravity [g] and the depth [h]. *)
Definition mech_energy (W : @space V F B) (M : mesh V F B) (g h : R) (u : dof -> R) : R :=
  dx M (fun p => 1/2 * (h * dot2 (vv (uv_of W u) p) (vv (uv_of W u) p))
                 + 1/2 * (g * (s_v (eta_of W u) p * s_v (eta_of W u) p))).

(** Linear equations over a flat bottom at depth [h] in a closed basin with
    nothing that drives the flow; velocity dg or hdiv. *)
Definition free_waves (E : swe_env V F B) (h : R) : Prop :=
  e_nonlinear E = false /\ 0 < e_g E /\ 0 < h /\ (forall b e, e_depth E b e = h) /\
  all_closed E /\ unforced E /\ e_u_jump E = true /\ e_grad_depth E = false.

(** At most one of the three bottom drag parameters is given. *)
Definition one_drag (E : swe_env V F B) : Prop :=
  (e_manning E = None \/ e_quad E = None) /\
  (e_nikuradse E = None \/ (e_manning E = None /\ e_quad E = None)).

(** Drag coefficients, turbine densities and thrust coefficients are not
    negative. *)
Definition passive_drag (E : swe_env V F B) : Prop :=
  (forall cd, e_quad E = Some cd -> forall p, 0 <= cd p) /\
  (forall c, e_linear E = Some c -> forall p, 0 <= c p) /\
  (forall k cd, e_drag_b E k = Some cd -> forall b, 0 <= cd b) /\
  (forall pts w den ct, In (pts, w, den, ct) (e_farms E) ->
     (forall p, In p pts -> 0 <= w p) /\ (forall p, 0 <= den p) /\ (forall a d, 0 <= ct a d)).

(** No drag which depends on the speed of the water. *)
Definition steady_drag (E : swe_env V F B) : Prop :=
  e_manning E = None /\ e_quad E = None /\ e_nikuradse E = None /\
  (forall k, e_drag_b E k = None) /\ e_farms E = nil.

(** The viscosity is not negative and continuous, and the penalty is as large as
    it has to be for the functions of the space. *)
Definition proper_viscosity (W : @space V F B) (E : swe_env V F B) : Prop :=
  forall nu, e_nu E = Some nu ->
    (forall p, 0 <= s_v nu p) /\ (forall f s, 0 <= s_f nu f s) /\
    (forall f, s_f nu f true = s_f nu f false) /\
    (forall f, In f (m_facets (e_mesh E)) -> 0 < sigma_max E f) /\
    (forall u, let D := fun f => avg_t (grad_f (uv_of W u) f) in
       let G := fun p => grad_v (uv_of W u) p in
       dS (e_mesh E) (fun f => s_f nu f true * inner_t (D f) (stress_of E 1 (D f)) / sigma_max E f)
       <= dx (e_mesh E) (fun p => s_v nu p * inner_t (G p) (stress_of E 1 (G p)))).

(** The degrees of freedom of the space. *)
Definition in_space (W : @space V F B) (x : dof) : Prop :=
  match x with UV j => (j < n_uv W)%nat | ETA i => (i < n_eta W)%nat end.

(** The basis functions are independent: only the zero state has no energy. *)
Definition independent (W : @space V F B) (M : mesh V F B) (g h : R) : Prop :=
  forall u, mech_energy W M g h u = 0 -> forall x, in_space W x -> u x = 0.

(** The divergence theorem for the elevations and velocities of the space. *)
Definition gauss_space (W : @space V F B) (M : mesh V F B) : Prop :=
  forall u, gauss_sv M (eta_of W u) (uv_of W u).
End Spec.
