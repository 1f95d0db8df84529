(** Model of the tests before an optimisation, the outcome of minimize, the masked
    control fields and the files of the progress lists, inversion_tools.py. *)
From Coq Require Import Reals List Bool String.
From Verif Require Import Inversion_Model.
Import ListNotations.
Open Scope R_scope.

(* ------------------------------------------------------------------ *)
(** * The tests and minimize *)
Section Tests.
Variables (M G Row : Type).
Variables (fJ fReg fMis : M -> R) (fG : M -> G) (fS : M -> Row).
Let st := imst M G Row.

(** numpy.isclose with its default tolerances *)
Definition isclose (a b : R) : bool :=
  if Rle_dec (Rabs (a - b)) (/ 100000000 + / 100000 * Rabs b) then true else false.

(** consistency_test, lines 564-574: the reduced functional is evaluated at the
    controls (and its callback, lines 356-366, is run) before the comparison *)
Definition consistency_test (m : M) (x : st) : ires st :=
  let y := do_eval M G Row fJ fReg fMis fS m x in
  let J := fJ m in
  if isclose J (c_J _ _ _ y) then IOk y else IErr ValueE.

(** taylor_test, lines 576-590: pyadjoint evaluates the functional and the derivative at
    controls of its choice ([evals]) and gives a rate *)
Inductive probe := PEval (m : M) | PGrad.
Definition run_probe (p : probe) (x : st) : st :=
  match p with PEval m => do_eval M G Row fJ fReg fMis fS m x | PGrad => do_grad M G Row fG x end.
Definition run_probes (ps : list probe) (x : st) : st := fold_left (fun s p => run_probe p s) ps x.
Definition taylor_test (evals : list probe) (rate : R) (x : st) : ires st :=
  let y := run_probes evals x in
  if Rlt_dec rate (19 / 10) then IErr ValueE else IOk y.

(** stop_annotating, lines 514-526 *)
Definition stop_annotating (consistency gradient : bool) (m : M) (evals : list probe) (rate : R) (x : st) : ires st :=
  ibind (if consistency then consistency_test m x else IOk x) (fun y =>
  if gradient then taylor_test evals rate y else IOk y).

(** How the optimisation routine ends: with a result, with the error that reports the
    iteration limit, or with another one *)
Inductive ending := Converged (m : M) | Limit | Failed.
Inductive mres := Result (m : option M) | Reraised | Broken (e : ierr).
(** minimize, lines 540-562; reset_counters, lines 261-262 *)
Definition reset_counters (x : st) : st :=
  mk_im M G Row (c_tape _ _ _ x) (c_J _ _ _ x) (c_Jreg _ _ _ x) (c_Jmis _ _ _ x) (c_dJ _ _ _ x) (c_m _ _ _ x)
    (p_J _ _ _ x) (p_reg _ _ _ x) (p_mis _ _ _ x) (p_dJ _ _ _ x) (c_i _ _ _ x) 0
    (s_rows _ _ _ x) (s_last _ _ _ x) (c_file _ _ _ x).
Definition minimize (exports : bool) (m0 : M) (ops : list (op M)) (fin : ending) (x : st) : ires (st * mres) :=
  ibind (start M G Row fJ fReg fMis fG fS exports m0 (reset_counters x)) (fun y =>
  ibind (opt_run M G Row fJ fReg fMis fG fS exports ops y) (fun z =>
  IOk (z, match fin with Converged m => Result (Some m) | Limit => Result (c_m _ _ _ z) | Failed => Reraised end))).
End Tests.

(* ------------------------------------------------------------------ *)
(** * The terms of the cost function *)
(** The tape of a forward run: one block per penalty term (line 1084), one per station
    manager and time (misfit_eval); [true] marks the regularisation *)
Definition jtape := list (bool * R).
Definition reg_sum (t : jtape) : R := rsum (map snd (filter fst t)).
Definition misfit_sum (t : jtape) : R := rsum (map snd (filter (fun b => negb (fst b)) t)).
(** One call of get_cost_function (lines 452-461) and the calls of the function it
    returns (lines 490-494): the blocks recorded and the value accumulated *)
Definition forward (regs : list R) (misfits : list (list R)) (t : jtape) : jtape * R :=
  ((t ++ map (fun r => (true, r)) regs ++ flat_map (map (fun m => (false, m))) misfits)%list,
   fold_left Rplus (map rsum misfits) (rsum regs)).

(* ------------------------------------------------------------------ *)
(** * Masked controls *)
Section Masks.
Variable X : Type.
(** project_control and export_gradient for masked combinations, lines 96-104 and
    134-148: the nodal values of the field are accumulated over the pairs *)
Definition project_masked (ms masks : list (X -> R)) : X -> R :=
  fold_left (fun (f : X -> R) (p : (X -> R) * (X -> R)) => fun x => f x + fst p x * snd p x)
    (combine ms masks) (fun _ => 0).
End Masks.

(* ------------------------------------------------------------------ *)
(** * The files of the progress lists *)
(** __init__, line 180; initialize, lines 203-209; update_progress, lines 316-326 *)
Definition progress_files (no_exports real : bool) : ires (list string) :=
  let quiet := no_exports || real in
  ibind (if quiet then IOk tt else if real then IErr ValueE else IOk tt) (fun _ =>
  IOk (if quiet then []
       else ((if real then ["m_progress"] else []) ++
             ["J_progress"; "J_reg_progress"; "J_misfit_progress"; "dJdm_progress"])%list))%string.
