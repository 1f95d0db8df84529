(** CFL coefficients attached to the Runge-Kutta schemes.

    Models the [cfl_coeff] class attributes of thetis/rungekutta.py.  [None]
    stands for [CFL_UNCONDITIONALLY_STABLE], which is infinity
    (timeintegrator.py:9).  Each entry pairs a tableau of RK_Model.v with the
    coefficient declared in the same class. *)

From Coq Require Import Reals List String.
From Verif Require Import RK_Model.
Import ListNotations.
Open Scope string_scope.
Open Scope R_scope.

(** Schemes whose stages are implicit (advanced by DIRKGeneric or
    DIRKGenericUForm); rungekutta.py:159, 178, 189, 218, 247, 268, 287, 305,
    323, 400, 408 *)
Definition implicit_schemes : list (string * tableau * option R) := [
  ("BackwardEuler", BackwardEulerTab, None);
  ("ImplicitMidpoint", ImplicitMidpointTab, None);
  ("CrankNicolsonRK", CrankNicolsonTab, None);
  ("DIRK22", DIRK22Tab, None);
  ("DIRK23", DIRK23Tab, None);
  ("DIRK33", DIRK33Tab, None);
  ("DIRK43", DIRK43Tab, None);
  ("DIRKLSPUM2", DIRKLSPUM2Tab, Some (434/100));
  ("DIRKLPUM2", DIRKLPUM2Tab, Some (434/100));
  ("ESDIRKMidpoint", ESDIRKMidpointTab, Some 1);
  ("ESDIRKTrapezoid", ESDIRKTrapezoidTab, None)].

(** Explicit schemes; rungekutta.py:149, 347, 365, 384, 392 *)
Definition explicit_schemes : list (string * tableau * option R) := [
  ("ForwardEuler", ForwardEulerTab, Some 1);
  ("SSPRK33", SSPRK33Tab, Some 1);
  ("ERKLSPUM2", ERKLSPUM2Tab, Some (12/10));
  ("ERKLPUM2", ERKLPUM2Tab, Some 2);
  ("ERKMidpoint", ERKMidpointTab, Some 1)].

(** implicitexplicit.py:57-59: an implicit-explicit pair takes the
    coefficient of its explicit half *)
Definition imex_cfl (dirk erk : option R) : option R := erk.

(** timeintegrator.py:482 *)
Definition leapfrog_cfl : R := 15874/10000.
(** timeintegrator.py:622 *)
Definition ssprk22_cfl : R := 1.
