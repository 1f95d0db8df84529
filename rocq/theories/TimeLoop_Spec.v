(** Specification vocabulary for the time loop, independent of the loop code. *)
From Verif Require Import Num TimeLoop_Model.

(** Clock value after [n] steps. *)
Definition clock (t0 dt : Qc) (n : nat) : Qc := t0 + qn n * dt.

(** State after [n] steps of the step function, called with the clock values. *)
Fixpoint state_after {S} (adv : Qc -> S -> S) (t0 dt : Qc) (s0 : S) (n : nat) : S :=
  match n with
  | O => s0
  | Datatypes.S m => adv (clock t0 dt m) (state_after adv t0 dt s0 m)
  end.

(** [n] is the number of steps after which the clock first exceeds the end time
    (minus the tolerance of 1e-5). *)
Definition steps_needed (t0 dt end_time : Qc) (n : nat) : Prop :=
  (forall k, (k < n)%nat -> clock t0 dt k <= end_time - t_epsilon) /\
  end_time - t_epsilon < clock t0 dt n.

(** [n] is the first step count at which [n*dt] reaches the threshold. *)
Definition first_step_reaching (dt threshold : Qc) (n : nat) : Prop :=
  threshold <= qn n * dt /\ forall m, (m < n)%nat -> qn m * dt < threshold.

(** Projections of an event trace. *)
Section Proj.
Context {S : Type}.
Definition advances (tr : list (event S)) : list Qc :=
  flat_map (fun e => match e with Advance t => [t] | _ => [] end) tr.
Definition yields_of (tr : list (event S)) : list Qc :=
  flat_map (fun e => match e with Yield t => [t] | _ => [] end) tr.
Definition timestep_callbacks (tr : list (event S)) : list (Qc * S) :=
  flat_map (fun e => match e with TimestepCallbacks t s => [(t, s)] | _ => [] end) tr.
Definition exports (tr : list (event S)) : list (export_record S) :=
  flat_map (fun e => match e with Export r => [r] | _ => [] end) tr.

(** Number of exports after the last time step event: used to say "at most one
    export per step". *)
Fixpoint export_between_steps (budget : bool) (tr : list (event S)) : Prop :=
  match tr with
  | [] => True
  | Advance _ :: r => export_between_steps true r
  | Export _ :: r => budget = true /\ export_between_steps false r
  | _ :: r => export_between_steps budget r
  end.

(** The k-th export (k = 0, 1, ...) made after step [n] of a run that started at
    (t0, it0, i0) with exporter indices [ixs]. *)
Definition expected_export (adv : Qc -> S -> S) (t0 dt : Qc) (s0 : S) (it0 i0 : Z) (ixs : list Z)
  (k n : nat) : export_record S :=
  mkExport (i0 + Z.of_nat (Datatypes.S k)) (map (Z.add (Z.of_nat k)) ixs)
           (clock t0 dt n) (it0 + Z.of_nat n) (state_after adv t0 dt s0 n).
(** The export made before the first step (if any), and the exporters' indices after it. *)
Definition initial_exports (sv : solver S) (t0 : Qc) : list (export_record S) :=
  if export_initial_state sv
  then [mkExport (i_export sv) (exporter_ix sv) t0 (iteration sv) (state sv)] else [].
Definition ixs_after_initial (sv : solver S) : list Z :=
  if export_initial_state sv then map (Z.add 1) (exporter_ix sv) else exporter_ix sv.

(** A solver with another value of export_initial_state. *)
Definition set_flag (b : bool) (sv : solver S) : solver S :=
  mkSolver (simulation_time sv) (iteration sv) (i_export sv) (next_export_t sv) b (exporter_ix sv) (state sv).
End Proj.
