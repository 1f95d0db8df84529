(** Mesh geometry and quantities derived from it:
    /repo/thetis/utility.py:543-581 (SubdomainProjector), :667-713 (minimum
    angles), :716-740 (cell widths), :743-768 (anisotropic cell size), :770-806
    (beta plane), solver2d.py:251-303 (wetting and drying parameter) and
    tracer_eq_2d.py:490-501 (streamline upwind test functions).

    Numbers are real; a C expression that would be NaN is [None]. Meshes are
    flat and made of triangles. *)
From Coq Require Import Reals List Bool Lra.
Import ListNotations.
Open Scope R_scope.

Definition pt := (R * R)%type.

Definition Rltb (a b : R) : bool := if Rlt_dec a b then true else false.

(* ------------------------------------------------------------------ *)
(** * Minimum angle, utility.py:682-706 *)

(** The kernel's search for the shortest edge: the first index of the
    smallest of the three. *)
Definition min_index (e : nat -> R) : nat :=
  let step '(me, mi) j := if Rltb (e j) me then (e j, j) else (me, mi) in
  snd (fold_left step [1; 2]%nat (e 0%nat, 0%nat)).

(** The two sums over the edges. *)
Definition num_den (e : nat -> R) (mi : nat) : R * R :=
  fold_left (fun '(nu, de) j =>
    if Nat.eqb j mi then (nu - e j * e j, de) else (nu + e j * e j, de * e j))
    [0; 1; 2]%nat (0, 2).

(** utility.py:701. The outer loop of the kernel repeats the same computation
    for every edge. *)
Definition minimum_angle (e : nat -> R) : R :=
  let '(nu, de) := num_den e (min_index e) in acos (nu / de).

(* ------------------------------------------------------------------ *)
(** * Cell widths, utility.py:728-739 *)

(** numpy.finfo(0.0).min; only its sign matters. *)
Definition finfo_min : R := - 2 ^ 1023.

(** One component: [x i] is the coordinate of vertex i; the index
    (2 i + 2) mod 6 is that of vertex (i + 1) mod 3. *)
Definition cell_width (x : nat -> R) : R :=
  fold_left (fun w i => Rmax w (Rabs (x i - x (Nat.modulo (i + 1) 3)))) [0; 1; 2]%nat finfo_min.

(* ------------------------------------------------------------------ *)
(** * Anisotropic cell size, utility.py:757-768 *)

Record mat2 := mk_m { a11 : R; a12 : R; a21 : R; a22 : R }.

(** JTJ = dot(J.T, J). *)
Definition jtj (J : mat2) : mat2 :=
  mk_m (a11 J * a11 J + a21 J * a21 J) (a11 J * a12 J + a21 J * a22 J)
       (a12 J * a11 J + a22 J * a21 J) (a12 J * a12 J + a22 J * a22 J).

(** [eps] is numpy.finfo(float).eps = 2^-52. The square root of a negative
    number is NaN. *)
Definition eps52 : R := / 2 ^ 52.

Definition csqrt (x : R) : option R := if Rlt_dec x 0 then None else Some (sqrt x).

Definition anisotropic (eps : R) (J : mat2) : option R :=
  let A := jtj J in
  let I1 := a11 A + a22 A in
  let D := (a11 A - a22 A) ^ 2 + 4 * a12 A * a21 A + eps in
  match csqrt D with
  | None => None
  | Some s => csqrt ((I1 - s) / 2)
  end.

(* ------------------------------------------------------------------ *)
(** * Beta plane, utility.py:770-806 *)

Definition omega : R := 7.2921150e-5.
Definition earth_r : R := 6371000.

Definition beta_plane_params (latitude : R) : R * R :=
  let alpha0 := 2 * PI * latitude / 360 in
  (2 * omega * sin alpha0, 2 * omega * cos alpha0 / earth_r).

Definition beta_plane (latitude y_offset y : R) : R :=
  let '(f0, beta) := beta_plane_params latitude in f0 + beta * (y - y_offset).

(* ------------------------------------------------------------------ *)
(** * Wetting and drying parameter, solver2d.py:273-288 *)

(** A cell: its three vertices, and the gradient of the bathymetry in it. *)
Record cell := mk_cell { c_nodes : nat -> nat; c_grad : R * R }.

(** The expression interpolated, for one cell. [xy] gives the coordinates of
    the mesh nodes; min_value and max_value are those of UFL. *)
Definition min_value (a b : R) : R := if Rltb a b then a else b.
Definition max_value (a b : R) : R := if Rltb b a then a else b.

Definition alpha_cell (xy : nat -> pt) (amin amax : option R) (c : cell) : R :=
  let w1 := cell_width (fun i => fst (xy (c_nodes c i))) in
  let w2 := cell_width (fun i => snd (xy (c_nodes c i))) in
  let a := w1 * Rabs (fst (c_grad c)) + w2 * Rabs (snd (c_grad c)) in
  let a := match amax with Some m => min_value m a | None => a end in
  match amin with Some m => max_value m a | None => a end.

(** Interpolation into a continuous linear space: the loop over the cells
    writes the value of the cell's expression to each of its nodes, so that
    the last cell counts. *)
Definition write (al : nat -> R) (c : cell) (v : R) : nat -> R :=
  fun k => if existsb (fun i => Nat.eqb k (c_nodes c i)) [0; 1; 2]%nat then v else al k.

Definition alpha_p1 (xy : nat -> pt) (amin amax : option R) (cells : list cell) : nat -> R :=
  fold_left (fun al c => write al c (alpha_cell xy amin amax c)) cells (fun _ => 0).

(** solver2d.py:291-303: the check of the result. *)
Inductive verdict := Valid | AssertionError | TypeErr.
Inductive alpha_value := AConstant (a : R) | AFunction (vals : list R) | AOther.

Definition check_alpha (a : alpha_value) : verdict :=
  match a with
  | AConstant x => if Rltb x 0 then AssertionError else Valid
  | AFunction vs => if Rltb (fold_right Rmin 0 vs) 0 then AssertionError else Valid
  | AOther => TypeErr
  end.

(* ------------------------------------------------------------------ *)
(** * Streamline upwind test functions, tracer_eq_2d.py:490-501 *)

(** The increment of the test function at a point: [cs] the cell size, [u] the
    velocity, [gphi] the gradient of the test function. UFL conditionals only
    use the selected branch. *)
Definition supg_tau (unorm D cs : R) : R :=
  let tau := 0.5 * cs / unorm in
  let Pe := 0.5 * unorm * cs / D in
  if Rltb 0 D then min_value tau (Pe / 3) else tau.

Definition supg_inc (unorm D cs : R) (u gphi : pt) : R :=
  if Rltb 0 unorm
  then supg_tau unorm D cs * (fst u * fst gphi + snd u * snd gphi) else 0.

Definition supg_test (unorm D cs : R) (u gphi : pt) (phi : R) : R :=
  phi + supg_inc unorm D cs u gphi.

(* ------------------------------------------------------------------ *)
(** * Projection of a restriction, utility.py:543-581 *)

Section Projector.
Context {V : Type}.
Variable pts : list V.             (* quadrature points of the mesh *)
Variable w : V -> R.
Variable inside : V -> bool.       (* dx(subdomain_id) *)

Definition quad (f : V -> R) : R := fold_right (fun p s => w p * f p + s) 0 pts.
Definition quad_sub (f : V -> R) : R :=
  fold_right (fun p s => (if inside p then w p * f p else 0) + s) 0 pts.

(** SubdomainProjector.project: the result [q] is in the space [S] and
    satisfies the variational problem. *)
Definition projected (S : (V -> R) -> Prop) (v q : V -> R) : Prop :=
  S q /\ forall p, S p -> quad (fun x => p x * q x) = quad_sub (fun x => p x * v x).
End Projector.
