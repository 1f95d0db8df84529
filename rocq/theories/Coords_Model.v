(** Model of thetis/coordsys.py in real arithmetic.  The pyproj transformer is an arbitrary
    function. *)
From Coq Require Import Reals List.
Import ListNotations.
Open Scope R_scope.

(** numpy.arctan2(y, x) *)
Definition arctan2 (y x : R) : R :=
  if Rlt_dec 0 x then atan (y / x)
  else if Rlt_dec x 0 then (if Rle_dec 0 y then atan (y / x) + PI else atan (y / x) - PI)
  else if Rlt_dec 0 y then PI / 2
  else if Rlt_dec y 0 then - (PI / 2)
  else 0.

(** get_vector_rotation_matrix, 129-160: the rotation angle *)
Definition rotation_angle (trans : R -> R -> R * R) (x y delta : R) : R :=
  let '(x1, y1) := trans x y in
  let '(x2, y2) := trans x (y + delta) in
  let dxdl := (x2 - x1) / delta in
  let dydl := (y2 - y1) / delta in
  arctan2 (- dxdl) dydl.
(** R, 156-158, row by row *)
Definition rotation_matrix (theta : R) : (R * R) * (R * R) :=
  ((cos theta, - sin theta), (sin theta, cos theta)).
(** VectorCoordSysRotation.__call__, 177-191, at one node *)
Definition rotate (theta vx vy : R) : R * R :=
  (vx * cos theta - vy * sin theta, vx * sin theta + vy * cos theta).
(** whole arrays; arrays of different length are an error *)
Fixpoint rotate_all (thetas : list R) (vx vy : list R) : option (list (R * R)) :=
  match thetas, vx, vy with
  | [], [], [] => Some []
  | t :: ts, a :: xs, b :: ys =>
    match rotate_all ts xs ys with Some r => Some (rotate t a b :: r) | None => None end
  | _, _, _ => None
  end.
(** with i_node: the i-th angle is used *)
Definition rotate_node (thetas : list R) (i : nat) (vx vy : R) : option (R * R) :=
  option_map (fun t => rotate t vx vy) (nth_error thetas i).

(** proj_transform for arrays, 35-55: None is nan (or another non-finite number) *)
Definition proj_transform (trans : R -> R -> R * R) (xs ys : list (option R)) : option (list (option R * option R)) :=
  if Nat.eqb (length xs) (length ys) then
    Some (map (fun p => match p with
                        | (Some x, Some y) => let '(a, b) := trans x y in (Some a, Some b)
                        | _ => (None, None) end) (combine xs ys))
  else None.
(** numpy.mod(lon, 360), 80: the remainder for a positive divisor *)
Definition lon_mod (lon : R) : R := lon - 360 * IZR (Int_part (lon / 360)).
