(** What vertical mixing and friction take from a tracer and from the flow. *)
From Coq Require Import Reals List Bool.
From Verif Require Import Forms_Model Forms3d_Model.
Import ListNotations.
Open Scope R_scope.

Section Spec.
Context {V F E : Type}.
Variable M : mesh3 V F E.

(** integral of the square of a scalar, and of the square of the speed *)
Definition variance3 (c : sfield3 V F E) : R := dx3 M (fun p => a_v c p * a_v c p).
Definition energy3 (u : vfield3 V F E) : R := dx3 M (fun p => dot3 (val_v u p) (val_v u p)).
(** the same for the difference of two *)
Definition variance_between (c d : sfield3 V F E) : R :=
  dx3 M (fun p => (a_v c p - a_v d p) * (a_v c p - a_v d p)).
Definition energy_between (u w : vfield3 V F E) : R :=
  dx3 M (fun p => let d := sub3 (val_v u p) (val_v w p) in dot3 d d).

(** The larger of the penalties of the two cells at a facet. *)
Definition larger (a b : R) : R := if Rgt_dec a b then a else b.

(** The variance vertical mixing with diffusivity [mu] takes from [c] per unit time:
    in the cells by the square of the vertical gradient; between layers, where [c]
    may jump ([dg]), by the square of the jump times the penalty [sig], less what the
    mean flux carries across the jump. *)
Definition mixing_loss (dg : bool) (sig : F -> R) (mu c : sfield3 V F E) : R :=
  dx3 M (fun p => a_v mu p * (c2 (a_gv c p) * c2 (a_gv c p)))
  + (if dg then
       dS_h M (fun f =>
         let j := (a_f c f true - a_f c f false) * c2 (g_nf M f) in
         let q := 1/2 * (a_f mu f true * c2 (a_gf c f true) + a_f mu f false * c2 (a_gf c f false)) in
         sig f * (1/2 * (a_f mu f true + a_f mu f false)) * (j * j) - 2 * (q * j))
     else 0).

(** The energy vertical viscosity takes: the same for each component. *)
Definition viscous_loss (dg : bool) (sig : F -> R) (mu : sfield3 V F E) (u : vfield3 V F E) : R :=
  mixing_loss dg sig mu (w_x u) + mixing_loss dg sig mu (w_y u) + mixing_loss dg sig mu (w_z u).

(** Bottom friction with drag coefficient [cd], linearised with the speed of [old]. *)
Definition friction_loss (cd : E -> R) (old u : vfield3 V F E) : R :=
  ds_bottom M (fun e => cd e * sqrt (a_e (w_x old) e ^ 2 + a_e (w_y old) e ^ 2)
                        * (a_e (w_x u) e ^ 2 + a_e (w_y u) e ^ 2)).
(** Linear drag in the water. *)
Definition drag_loss (d : V -> R) (u : vfield3 V F E) : R :=
  dx3 M (fun p => d p * dot3 (val_v u p) (val_v u p)).
(** Work of the wind stress [tau] at the surface. *)
Definition wind_work (tau : E -> v3) (rho : R) (u : vfield3 V F E) : R :=
  ds_surf M (fun e => (c0 (tau e) * a_e (w_x u) e + c1 (tau e) * a_e (w_y u) e) / rho).
End Spec.
