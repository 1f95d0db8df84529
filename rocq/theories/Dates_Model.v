(** The calendar: how the start date of a simulation reaches the stored files,
    the diagnostic files and a restarted run.

    Modelled code: thetis/solver2d.py (create_exporters, load_state,
    print_state), thetis/solver.py (the same), thetis/exporter.py (HDF5Exporter),
    thetis/callback.py (DiagnosticCallback.__init__, DiagnosticHDF5).

    Simplifications: dates are instants in seconds, [isoformat] followed by
    [fromisoformat] gives the same date; the files of the velocity and of the
    elevation, which are written together with the same attributes, are one
    file; legacy files (without attributes) are left out; the numerical state is
    left out. *)
From Coq Require Import String.
From Verif Require Import Num.
Open Scope string_scope.

(** Attributes of a stored file, exporter.py:179-190. *)
Record attrs := mkAttrs { at_time : option Qc; at_date : option Qc }.
Definition store := (string * Z)%type -> option attrs.
Definition put (d : store) (dir : string) (i : Z) (a : attrs) : store :=
  fun k => if andb (String.eqb (fst k) dir) (Z.eqb (snd k) i) then Some a else d k.

(** A diagnostic callback: the date in the units of its time axis
    (callback.py:208-212) and the entries written (times). *)
Record cback := mkCb { cb_units : option Qc; cb_times : list Qc }.

Record solver := mkS
  { opt_date : option Qc;            (* options.simulation_initial_date *)
    opt_dir : string;                (* options.output_directory *)
    exp_date : option (option Qc);   (* initial_time of the exporters; None: there are none yet *)
    sim_t : option Qc;               (* simulation_time *)
    cbs : list cback }.

Definition new_solver (dir : string) : solver := mkS None dir None (Some 0) [].

(** initialize / create_exporters, solver2d.py:704-744, solver.py:870-920: the
    exporters are created once, with the date the options have at that time. *)
Definition initialize (s : solver) : solver :=
  match exp_date s with
  | None => mkS (opt_date s) (opt_dir s) (Some (opt_date s)) (sim_t s) (cbs s)
  | Some _ => s
  end.

Inductive dim := Two | Three.

Inductive op :=
| SetDate (d : option Qc)                    (* the user assigns simulation_initial_date *)
| Initialize
| AddCallback                                (* a diagnostic callback is created *)
| Tick (t : Qc)                              (* the time loop sets simulation_time *)
| Export (i : Z)                             (* export with index i *)
| Evaluate                                   (* every callback writes an entry *)
| LoadState (m : dim) (dir : string) (i : Z) (t : option Qc).

Inductive err := NoFile | NoTime.

(** HDF5Exporter.export_as_index, exporter.py:160-192; [float(None)] fails. *)
Definition export (i : Z) (s : solver) (d : store) : (solver * store) + err :=
  let s := initialize s in
  match sim_t s with
  | None => inr NoTime
  | Some t => inl (s, put d (opt_dir s) i
                        (mkAttrs (Some t) (match exp_date s with Some x => x | None => None end)))
  end.

(** load_state, solver2d.py:864-921 and solver.py:1045-1130. The time of the
    file is used unless the caller gives one. The 2D solver takes the date of
    the file only when it takes its time, the 3D solver always. *)
Definition load_state (m : dim) (dir : string) (i : Z) (t : option Qc) (s : solver) (d : store)
  : (solver * store) + err :=
  let s := initialize s in
  match d (dir, i) with
  | None => inr NoFile
  | Some a =>
      let take := match m, t with Two, Some _ => false | _, _ => true end in
      let date := match at_date a with
                  | Some x => if take then Some x else opt_date s
                  | None => opt_date s
                  end in
      let time := match t with Some x => Some x | None => at_time a end in
      inl (mkS date (opt_dir s) (exp_date s) time (cbs s), d)
  end.

Definition step (o : op) (s : solver) (d : store) : (solver * store) + err :=
  match o with
  | SetDate x => inl (mkS x (opt_dir s) (exp_date s) (sim_t s) (cbs s), d)
  | Initialize => inl (initialize s, d)
  | AddCallback =>
      inl (mkS (opt_date s) (opt_dir s) (exp_date s) (sim_t s) (cbs s ++ [mkCb (opt_date s) []]), d)
  | Tick t => inl (mkS (opt_date s) (opt_dir s) (exp_date s) (Some t) (cbs s), d)
  | Export i => export i s d
  | Evaluate =>
      match sim_t s with
      | None => inr NoTime
      | Some t => inl (mkS (opt_date s) (opt_dir s) (exp_date s) (sim_t s)
                         (map (fun c => mkCb (cb_units c) (cb_times c ++ [t])) (cbs s)), d)
      end
  | LoadState m dir i t => load_state m dir i t s d
  end.

Fixpoint run (ops : list op) (s : solver) (d : store) : (solver * store) + err :=
  match ops with
  | [] => inl (s, d)
  | o :: r => match step o s d with inl (s', d') => run r s' d' | inr e => inr e end
  end.

(** One program run: a new solver; the files stay. *)
Definition session (dir : string) (ops : list op) (d : store) : (solver * store) + err :=
  run ops (new_solver dir) d.

Fixpoint sessions (l : list (string * list op)) (d : store) : store + err :=
  match l with
  | [] => inl d
  | (dir, ops) :: r =>
      match session dir ops d with inl (_, d') => sessions r d' | inr e => inr e end
  end.

(** print_state, solver2d.py:936-937, solver.py:1144-1145: the date and time
    shown to the user. *)
Definition clock (s : solver) : option Qc :=
  match opt_date s, sim_t s with Some d, Some t => Some (d + t)%Qc | _, _ => None end.

(** The date and time a stored file stands for. *)
Definition file_clock (a : attrs) : option Qc :=
  match at_date a, at_time a with Some d, Some t => Some (d + t)%Qc | _, _ => None end.
