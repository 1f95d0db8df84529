(** Model of DepthExpression (thetis/utility.py:936-996), of the wetting-drying
    parameter (thetis/solver2d.py:251-303) and of the mass term of the shallow
    water equations (thetis/shallowwater_eq.py:840-850, 917-920, 987-990), at one
    point of the domain, in real arithmetic. *)
From Coq Require Import Reals List Lra.
Import ListNotations.
Open Scope R_scope.

(** the options of DepthExpression.__init__, utility.py:970-976 *)
Record depth_opts := mkDepth { nonlinear : bool; wetting : bool; alpha : R }.

(** wd_bathymetry_displacement, utility.py:977-987 *)
Definition wd_displacement (o : depth_opts) (h eta : R) : R :=
  if wetting o then let H := h + eta in 0.5 * (sqrt (H ^ 2 + alpha o ^ 2) - H) else 0.
(** get_total_depth, utility.py:988-996 *)
Definition total_depth (o : depth_opts) (h eta : R) : R :=
  if nonlinear o then h + eta + wd_displacement o h eta else h.
(** integrand of the elevation part of mass_term, shallowwater_eq.py:849-850 and
    917-920 *)
Definition mass_integrand (o : depth_opts) (h eta : R) : R := eta - (- wd_displacement o h eta).

(** automatic alpha at one node, solver2d.py:279-284; [a] is the product of cell
    width and bathymetry gradient *)
Definition capped_alpha (min_alpha max_alpha : option R) (a : R) : R :=
  let a := match max_alpha with Some m => Rmin m a | None => a end in
  match min_alpha with Some m => Rmax m a | None => a end.
(** value of the linear interpolant of nodal values: [ws] are the barycentric
    coordinates of the point, 286-288 *)
Definition interpolate_p1 (ws nodal : list R) : R :=
  fold_right Rplus 0 (map (fun p => fst p * snd p) (combine ws nodal)).
(** the validity check, 291-303: nodal values must not be negative *)
Definition alpha_accepted (nodal : list R) : Prop := Forall (fun a => a >= 0) nodal.
