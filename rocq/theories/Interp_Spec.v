(** Vocabulary for the properties of thetis/interpolation.py, independent of the
    algorithms in Interp_Model.v. *)
From Coq Require Import String Ascii Sorting.Sorted Permutation.
From Verif Require Import Num Interp_Model.
Open Scope Qc_scope.

Definition increasing (l : list Qc) : Prop := StronglySorted Qclt l.

(** [x] is the greatest member of [P] strictly below [b] / the least one not below [b] *)
Definition greatest_below (P : Qc -> Prop) (b x : Qc) : Prop :=
  P x /\ x < b /\ forall y, P y -> y < b -> y <= x.
Definition least_from (P : Qc -> Prop) (b x : Qc) : Prop :=
  P x /\ b <= x /\ forall y, P y -> b <= y -> x <= y.
Definition nearest_stamp (previous : bool) (P : Qc -> Prop) (b x : Qc) : Prop :=
  if previous then greatest_below P b x else least_from P b x.
Definition no_stamp (previous : bool) (P : Qc -> Prop) (b : Qc) : Prop :=
  forall y, P y -> if previous then ~ (y < b) else ~ (b <= y).

(** Files *)
Definition all_before (f g : ncfile) : Prop :=
  forall x y, In x (nc_times f) -> In y (nc_times g) -> x < y.
Definition valid_file (f : ncfile) : Prop := nc_times f <> [] /\ increasing (nc_times f).
Definition disjoint_ranges (files : list ncfile) : Prop :=
  ForallOrdPairs (fun f g => all_before f g \/ all_before g f) files.
Definition a_stamp (files : list ncfile) (x : Qc) : Prop := exists f, In f files /\ In x (nc_times f).
Definition stored_at (files : list ncfile) (name : string) (k : nat) (x : Qc) : Prop :=
  exists f, In f files /\ nc_name f = name /\ nth_error (nc_times f) k = Some x.

(** Points of a d-dimensional grid, as coordinate lists *)
Definition coord (i : nat) (p : list Qc) : Qc := nth i p 0.
(** the point [x] is the combination of the vertices [vs] with coefficients [w] *)
Definition combination (d : nat) (vs : list (list Qc)) (w : list Qc) (x : list Qc) : Prop :=
  forall i, (i < d)%nat -> coord i x = dot (map (coord i) vs) w.
(** [x] lies in the convex hull of the points [ps] *)
Definition in_hull (d : nat) (ps : list (list Qc)) (x : list Qc) : Prop :=
  exists w, List.length w = List.length ps /\ (forall c, In c w -> 0 <= c) /\ qsum w = 1 /\ combination d ps w x.
(** affine function c + a . p *)
Definition affine (c : Qc) (a : list Qc) (p : list Qc) : Qc := c + dot a p.
