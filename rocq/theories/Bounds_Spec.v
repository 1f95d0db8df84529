(** C88: what it takes for a piecewise constant tracer to stay in its range. *)
From Coq Require Import Reals List Bool Arith.
From Verif Require Import Forms_Model Forms_Spec P_Tracer2d Galerkin_Model P_Galerkin.
Import ListNotations.
Open Scope R_scope.

Section Spec.
Context {V F B : Type}.
Local Notation tcase := (@tcase V F B).
Variable M : mesh V F B.
(** the number of cells, and the cell a point is in (from either side at a facet) *)
Variable n : nat.
Variable cell_v : V -> nat.
Variable cell_f : F -> bool -> nat.
Variable cell_b : B -> nat.

Definition numbered : Prop :=
  (forall p, (cell_v p < n)%nat) /\ (forall f s, (cell_f f s < n)%nat) /\ (forall b, (cell_b b < n)%nat).

(** one basis function for each cell: one in it, zero elsewhere *)
Definition p0_space : @tspace V F B := mk_tspace n (ind cell_v cell_f cell_b).

(** the area of a cell *)
Definition cell_area (K : nat) : R := dx M (fun p => if Nat.eqb (cell_v p) K then 1 else 0).

(** A flow that can carry a piecewise constant tracer: the normal velocity is the
    same on both sides of a facet and is the one prescribed where the boundary
    prescribes one; discontinuous elements with upwinding; the diffusivity and
    its penalty are not negative; no diffusive flux through the boundary. *)
Definition carries (k : tcase) : Prop :=
  e_mesh (tc_E k) = M /\ t_dg (tc_T k) = true /\
  (forall K, (K < n)%nat -> gauss_sv M (ind cell_v cell_f cell_b K) (tc_uv k)) /\
  normal_continuous (tc_E k) (tc_uv k) /\ consistent_bnd (tc_E k) (tc_T k) (tc_uv k) (tc_elev k) /\
  (forall f, 0 <= lax (tc_T k) f) /\
  (forall mu, t_mu (tc_T k) = Some mu ->
     (forall f, 0 <= psig (tc_T k) f * avg (s_f mu f)) /\
     forall m tb, t_bnd (tc_T k) m = Some tb ->
       match tb_diff_flux tb with
       | Some q => forall b, q b = 0
       | None => tb_value tb <> None -> forall b, tc_gext k b = (0, 0)
       end).

(** values at the boundary, and the sign of the source *)
Definition fed_above (lo : R) (k : tcase) : Prop :=
  (forall b tb v, t_bnd (tc_T k) (m_marker M b) = Some tb -> tb_value tb = Some v -> lo <= v b) /\
  forall s, t_source (tc_T k) = Some s -> forall p, 0 <= s p.
Definition fed_below (hi : R) (k : tcase) : Prop :=
  (forall b tb v, t_bnd (tc_T k) (m_marker M b) = Some tb -> tb_value tb = Some v -> v b <= hi) /\
  forall s, t_source (tc_T k) = Some s -> forall p, s p <= 0.

Definition fed_positive (k : tcase) : Prop :=
  (forall b tb v, t_bnd (tc_T k) (m_marker M b) = Some tb -> tb_value tb = Some v -> 0 <= v b) /\
  forall s, t_source (tc_T k) = Some s -> forall p, 0 <= hv (tc_E k) (tc_elev k) p * s p.
(** where water comes in, the value it brings is given *)
Definition inflow_given (k : tcase) : Prop :=
  forall b, In b (m_bnds M) -> unb M (tc_uv k) b < 0 ->
  exists tb v, t_bnd (tc_T k) (m_marker M b) = Some tb /\ tb_value tb = Some v.

(** what is exchanged by diffusion *)
Definition exchange (k : tcase) (K : nat) (f : F) : R :=
  match t_mu (tc_T k) with
  | None => 0
  | Some mu => ((if Nat.eqb (cell_f f true) K then 1 else 0) + (if Nat.eqb (cell_f f false) K then 1 else 0))
               * (psig (tc_T k) f * avg (s_f mu f))
  end.
(** what comes into a cell per unit time, and what leaves it *)
Definition intake (k : tcase) (K : nat) : R :=
  dS M (fun f => inflow_f (tc_E k) (tc_T k) cell_f (tc_uv k) K f + exchange k K f)
  + ds M (inflow_b (tc_E k) cell_b (tc_uv k) K).
Definition output (k : tcase) (K : nat) : R :=
  dS M (fun f => outflow_f (tc_E k) (tc_T k) cell_f (tc_uv k) K f + exchange k K f)
  + ds M (outflow_b (tc_E k) cell_b (tc_uv k) K).

(** every cell value is in the range *)
Definition within (lo hi : R) (c : nat -> R) : Prop := forall K, (K < n)%nat -> lo <= c K <= hi.
Definition above (lo : R) (c : nat -> R) : Prop := forall K, (K < n)%nat -> lo <= c K.
Definition below (hi : R) (c : nat -> R) : Prop := forall K, (K < n)%nat -> c K <= hi.
End Spec.
