(** The check of the dimensionless grain size when a sediment model is built,
    /repo/thetis/sediment_model.py:139-141:
      self.dstar = Function(self.P1_2d).interpolate(average_size*((g*R)/viscosity**2)**(1/3))
      if float(max(self.dstar.dat.data[:])) < 1: raise ValueError('dstar value less than 1')
    The nodes of the P1 space are shared out among processes; [dat.data] holds the nodes a
    process owns, and Python's max raises ValueError for an empty array. *)
From Coq Require Import Reals List Bool.
From Verif Require Import Sediment_Model.
Import ListNotations.
Open Scope R_scope.

Section Check.
Context {Node : Type}.
(** options of the sediment model at the nodes (constants or functions) *)
Variables size visc : Node -> R.
Variable rhos : R.

(** dstar, sediment_model.py:139 *)
Definition dstar_at (x : Node) : R := dstar (size x) rhos (visc x).

(** Python's max of a sequence; None is the ValueError for an empty one *)
Definition py_max (l : list R) : option R :=
  match l with
  | [] => None
  | a :: r => Some (fold_left (fun m x => if Rlt_dec m x then x else m) r a)
  end.

Inductive outcome := Built | EmptyMax | SmallGrain.

(** lines 140-141 on a process that owns the nodes [owned] *)
Definition check (owned : list Node) : outcome :=
  match py_max (map dstar_at owned) with
  | None => EmptyMax
  | Some m => if Rlt_dec m 1 then SmallGrain else Built
  end.

(** the constructor on all processes *)
Definition check_all (parts : list (list Node)) : list outcome := map check parts.
End Check.
