(** What the 3D transport properties speak about, independently of the terms. *)
From Coq Require Import Reals List Bool.
From Verif Require Import Forms_Model Forms3d_Model.
Import ListNotations.
Open Scope R_scope.

Section Spec3d.
Context {V F E : Type}.

(** The constant function. *)
Definition const3 (k : R) : sfield3 V F E :=
  mk_s3 (fun _ => k) (fun _ => zero3) (fun _ _ => k) (fun _ _ => zero3) (fun _ => k) (fun _ => zero3).

(** The square of a function. *)
Definition sq3 (c : sfield3 V F E) : sfield3 V F E :=
  mk_s3 (fun p => a_v c p * a_v c p) (fun p => scal3 (2 * a_v c p) (a_gv c p))
        (fun f s => a_f c f s * a_f c f s) (fun f s => scal3 (2 * a_f c f s) (a_gf c f s))
        (fun e => a_e c e * a_e c e) (fun e => scal3 (2 * a_e c e) (a_ge c e)).

(** Outward volume flux through the moving free surface: the water's normal velocity
    minus that of the mesh. *)
Definition surface_flux (M : mesh3 V F E) (uv : vfield3 V F E) (w : sfield3 V F E) (e : E) : R :=
  doth (val_e uv e) (g_ne M e) + a_e w e * c2 (g_ne M e).

(** The weak continuity equation for one test function: the vertical velocity balances
    the divergence of the horizontal velocity. *)
Definition continuity (M : mesh3 V F E) (open_bnd : nat -> bool) (uv : vfield3 V F E)
  (w phi : sfield3 V F E) : Prop := w_lhs M phi w = w_rhs M open_bnd phi uv.

(** Horizontal velocity at the free surface: without a vertical component for the
    symmetric condition, tangential otherwise (mimetic elements). *)
Definition surface_velocity (M : mesh3 V F E) (symm : bool) (uv : vfield3 V F E) : Prop :=
  forall e, In e (g_surf M) ->
    if symm then c2 (val_e uv e) * c2 (g_ne M e) = 0 else dot3 (val_e uv e) (g_ne M e) = 0.

(** Lateral boundaries at which the tracer equation and the vertical velocity agree about
    being open, and external tracer values equal to [k]. *)
Definition same_open (M : mesh3 V F E) (open_bnd : nat -> bool) (bnd : nat -> option (tb3 E)) : Prop :=
  forall e, In e (g_lat M) ->
    (open_bnd (g_marker M e) = true <-> bnd (g_marker M e) <> None).
Definition ext_constant (M : mesh3 V F E) (bnd : nat -> option (tb3 E)) (k : R) : Prop :=
  forall e tb v, In e (g_lat M) -> bnd (g_marker M e) = Some tb -> x_value tb = Some v -> v e = k.

Definition positive3 (M : mesh3 V F E) : Prop :=
  (forall p, In p (g_cells M) -> 0 < g_wv M p) /\
  (forall f, In f (g_hor M) -> 0 < g_wf M f) /\ (forall f, In f (g_ver M) -> 0 < g_wf M f) /\
  (forall e, In e (g_surf M) -> 0 < g_we M e) /\ (forall e, In e (g_bot M) -> 0 < g_we M e) /\
  (forall e, In e (g_lat M) -> 0 < g_we M e).
End Spec3d.
