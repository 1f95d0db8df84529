(** C91: when two runs are the same computation. *)
From Verif Require Import Num TimeLoop_Model.

(** The same step, end and dates; how often results are written may differ. *)
Definition same_computation (o o' : options) : Prop :=
  o_dt o' = o_dt o /\ o_end_time o' = o_end_time o /\ o_initial_date o' = o_initial_date o /\ o_end_date o' = o_end_date o.

(** The trace without the exports: the calls of the time integrator with their
    times, and what the user's code sees after each step. *)
Definition without_exports {S : Type} (tr : list (event S)) : list (event S) :=
  filter (fun e => match e with Export _ => false | _ => true end) tr.

(** Options with another end time; there are no dates. *)
Definition until (e : Qc) (o : options) : options :=
  mkOptions (o_dt o) (o_export_time o) (Some e) None None.

(** The same events later. *)
Definition later {S : Type} (tau : Qc) (e : event S) : event S :=
  match e with
  | Advance t => Advance (t + tau)
  | Yield t => Yield (t + tau)
  | TimestepCallbacks t s => TimestepCallbacks (t + tau) s
  | Export r => Export (mkExport (ev_i_export r) (ev_indices r) (ev_time r + tau) (ev_iteration r) (ev_state r))
  end.
(** The same solver with the clock moved. *)
Definition clock_moved {S : Type} (tau : Qc) (sv : solver S) : solver S :=
  mkSolver (option_map (fun t => t + tau) (simulation_time sv)) (iteration sv) (i_export sv)
           (next_export_t sv + tau) (export_initial_state sv) (exporter_ix sv) (state sv).
