(** What it means for a time step not to amplify: vocabulary for C70. *)

From Coq Require Import Reals.
Open Scope R_scope.

Section Stable.
Context {D : Type}.

(** a convex measure of the size of a state: any norm, the total variation,
    the largest value, minus the smallest value, the amount of undershoot *)
Definition convex_measure (N : (D -> R) -> R) : Prop :=
  forall u v a, 0 <= a <= 1 ->
    N (fun x => (1 - a) * u x + a * v x) <= (1 - a) * N u + a * N v.

(** forward Euler with step [tau] does not increase [N] *)
Definition euler_bounded (N : (D -> R) -> R) (tau : R) (F : (D -> R) -> D -> R) : Prop :=
  forall v, N (fun x => v x + tau * F v x) <= N v.

Definition linear_operator (L : (D -> R) -> D -> R) : Prop :=
  (forall u v x, L (fun y => u y + v y) x = L u x + L v x) /\
  (forall a u x, L (fun y => a * u y) x = a * L u x).

(** a symmetric, positive semi-definite product such as the L2 product *)
Definition inner_product (ip : (D -> R) -> (D -> R) -> R) : Prop :=
  (forall u v, ip u v = ip v u) /\
  (forall u v w, ip (fun x => u x + v x) w = ip u w + ip v w) /\
  (forall a u w, ip (fun x => a * u x) w = a * ip u w) /\
  (forall u, 0 <= ip u u).

(** [L] does not produce energy *)
Definition dissipative (ip : (D -> R) -> (D -> R) -> R) (L : (D -> R) -> D -> R) : Prop :=
  forall u, ip u (L u) <= 0.

(** the nonlinear counterpart: trajectories do not move apart *)
Definition monotone (ip : (D -> R) -> (D -> R) -> R) (F : (D -> R) -> D -> R) : Prop :=
  forall u v, ip (fun x => u x - v x) (fun x => F u x - F v x) <= 0.

Definition distance2 (ip : (D -> R) -> (D -> R) -> R) (u v : D -> R) : R :=
  ip (fun x => u x - v x) (fun x => u x - v x).
End Stable.

(** largest absolute value over three components *)
Definition max_abs (u : nat -> R) : R :=
  Rmax (Rabs (u 0%nat)) (Rmax (Rabs (u 1%nat)) (Rabs (u 2%nat))).
(** undershoot below zero of a single number *)
Definition undershoot (u : unit -> R) : R := Rmax 0 (- u tt).
