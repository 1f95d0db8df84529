(** Model of the time loop, the export schedule and the restart bookkeeping of
    the 2D and the 3D solver.

    Modelled code: thetis/solver2d.py (create_iterator, export, load_state),
    thetis/solver.py (iterate, load_state, set_time_step).

    Simplifications: exact rationals instead of floats; the numerical state is
    an arbitrary type [S] and [timestepper.advance(t, update_forcings)] is an
    arbitrary function [adv t]; printing, callback registration and CPU timing
    are left out; exporters are represented by their next export index (the
    exporters themselves are modelled in Exporter_Model.v). *)
From Verif Require Import Num.

Inductive error :=
| AssertionError_end_date        (* solver2d.py:1094 / solver.py:1297 *)
| AssertionError_no_end_time     (* solver2d.py:1104 / solver.py:1307 *)
| TraitError_end_time            (* simulation_end_time is a PositiveFloat, options.py:647 *)
| TypeError_no_time              (* arithmetic with simulation_time = None *)
| IOError_missing_file           (* stored file does not exist *)
| OutOfFuel.                     (* model artefact: the loop was not given enough fuel *)

Inductive result (A : Type) := Ok (a : A) | Err (e : error).
Arguments Ok {A} _. Arguments Err {A} _.

(** solver2d.py:1036, solver.py:1236: [t_epsilon = 1.0e-5] *)
Definition t_epsilon : Qc := qq 1 100000.

(** [datetime.timedelta(x)]: the first positional argument of timedelta is DAYS;
    dates are modelled as seconds since an epoch. *)
Definition timedelta_positional (x : Qc) : Qc := qz 86400 * x.

Section Loop.
Variable S : Type.
(** [timestepper.advance(t, update_forcings)] acting on the prognostic state *)
Variable adv : Qc -> S -> S.

(** What an observer sees. *)
Record export_record := mkExport {
  ev_i_export : Z;        (* solver.i_export at the time of export *)
  ev_indices  : list Z;   (* index used by each exporter (vtk, hdf5, ...) *)
  ev_time     : Qc;       (* the time stamp passed to the exporters *)
  ev_iteration : Z;       (* iteration count, printed by print_state *)
  ev_state    : S         (* the state that is exported *)
}.
Inductive event :=
| Advance (t : Qc)            (* timestepper.advance called with this time *)
| Yield (t : Qc)              (* value yielded by create_iterator (2D only) *)
| TimestepCallbacks (t : Qc) (s : S)  (* callbacks.evaluate(mode='timestep') *)
| Export (e : export_record).

(** Solver attributes that the loop uses (solver2d.py:108-140, solver.py:126-161).
    [simulation_time] can be [None] after load_state. *)
Record solver := mkSolver {
  simulation_time : option Qc;
  iteration : Z;
  i_export : Z;
  next_export_t : Qc;              (* used by the 3D solver only *)
  export_initial_state : bool;
  exporter_ix : list Z;            (* next_export_ix of every exporter *)
  state : S
}.

(** Options that the loop uses. *)
Record options := mkOptions {
  o_dt : Qc;                       (* solver.dt *)
  o_export_time : Qc;              (* simulation_export_time *)
  o_end_time : option Qc;          (* simulation_end_time *)
  o_initial_date : option Qc;
  o_end_date : option Qc
}.

(** Variables of the running loop (solver attributes and loop locals). *)
Record lstate := mkL {
  l_time : Qc;
  l_internal : nat;                (* internal_iteration *)
  l_iteration : Z;
  l_i_export : Z;
  l_next : Qc;                     (* next_export_t (local in 2D, attribute in 3D) *)
  l_ix : list Z;
  l_state : S
}.

(** [self.export(time=self.simulation_time)], solver2d.py:800-817 /
    solver.py:985-1004: each exporter writes with its own index and increments
    it (exporter.py:120, 173, 183, 356-377). *)
Definition do_export (l : lstate) : lstate * event :=
  (mkL (l_time l) (l_internal l) (l_iteration l) (l_i_export l) (l_next l)
       (map (Z.add 1) (l_ix l)) (l_state l),
   Export (mkExport (l_i_export l) (l_ix l) (l_time l) (l_iteration l) (l_state l))).

(** One pass through the body of the while loop, solver2d.py:1115-1142
    ([yields = true]) and solver.py:1318-1341 ([yields = false]). *)
Definition body (yields : bool) (o : options) (t0 : Qc) (l : lstate) : lstate * list event :=
  let s' := adv (l_time l) (l_state l) in
  let n' := Datatypes.S (l_internal l) in
  let t' := t0 + qn n' * o_dt o in
  let evs := Advance (l_time l) :: (if yields then [Yield (l_time l)] else [])
             ++ [TimestepCallbacks t' s'] in
  if Qcleb (l_next l - t_epsilon) t' then
    let l1 := mkL t' n' (l_iteration l + 1) (l_i_export l + 1)
                  (l_next l + o_export_time o) (l_ix l) s' in
    let '(l2, e) := do_export l1 in (l2, evs ++ [e])
  else
    (mkL t' n' (l_iteration l + 1) (l_i_export l) (l_next l) (l_ix l) s', evs).

(** while self.simulation_time <= self.options.simulation_end_time - t_epsilon,
    solver2d.py:1114, solver.py:1317.  Fuel exhaustion is an explicit error. *)
Fixpoint loop (fuel : nat) (yields : bool) (o : options) (end_time t0 : Qc) (l : lstate)
  : result (lstate * list event) :=
  match fuel with
  | O => Err OutOfFuel
  | Datatypes.S f =>
    if Qcleb (l_time l) (end_time - t_epsilon) then
      let '(l', evs) := body yields o t0 l in
      match loop f yields o end_time t0 l' with
      | Err e => Err e
      | Ok (l'', evs') => Ok (l'', evs ++ evs')
      end
    else Ok (l, [])
  end.

(** End time resolution, solver2d.py:1090-1104, solver.py:1293-1307.
    Note [datetime.timedelta(initial_simulation_time)]. *)
Definition resolve_end_time (o : options) (t0 : Qc) : result Qc :=
  match o_initial_date o, o_end_date o with
  | Some init_date, Some end_date =>
    let now := init_date + timedelta_positional t0 in
    if Qcltb now end_date then
      let end_time := (end_date - now) + t0 in
      if Qcltb 0 end_time then Ok end_time else Err TraitError_end_time
    else Err AssertionError_end_date
  | _, _ => match o_end_time o with
            | Some e => Ok e
            | None => Err AssertionError_no_end_time
            end
  end.

Definition start_l (sv : solver) (t0 next : Qc) : lstate :=
  mkL t0 0 (iteration sv) (i_export sv) next (exporter_ix sv) (state sv).

Definition finish (sv : solver) (l : lstate) : solver :=
  mkSolver (Some (l_time l)) (l_iteration l) (l_i_export l) (l_next l)
           (export_initial_state sv) (l_ix l) (l_state l).

(** Common part: initial export then loop. *)
Definition run_from (fuel : nat) (yields : bool) (o : options) (sv : solver) (t0 next : Qc)
  : result (solver * list event) :=
  match resolve_end_time o t0 with
  | Err e => Err e
  | Ok end_time =>
    let l0 := start_l sv t0 next in
    let '(l1, evs0) := if export_initial_state sv
                       then let '(l, e) := do_export l0 in (l, [e]) else (l0, []) in
    match loop fuel yields o end_time t0 l1 with
    | Err e => Err e
    | Ok (l, evs) => Ok (finish sv l, evs0 ++ evs)
    end
  end.

(** FlowSolver2d.iterate / create_iterator, solver2d.py:973-1144: next_export_t
    is a local variable computed from the current time (line 1038). *)
Definition iterate_2d (fuel : nat) (o : options) (sv : solver) : result (solver * list event) :=
  match simulation_time sv with
  | None => Err TypeError_no_time
  | Some t0 => run_from fuel true o sv t0 (t0 + o_export_time o)
  end.

(** FlowSolver.iterate, solver.py:1216-1341: uses the attribute next_export_t. *)
Definition iterate_3d (fuel : nat) (o : options) (sv : solver) : result (solver * list event) :=
  match simulation_time sv with
  | None => Err TypeError_no_time
  | Some t0 => run_from fuel false o sv t0 (next_export_t sv)
  end.

(** A new solver with [nexp] exporters, after assign_initial_conditions
    (solver2d.py:108-140, solver.py:126-161 and 859). *)
Definition fresh (o : options) (nexp : nat) (s : S) : solver :=
  mkSolver (Some 0) 0 0 (0 + o_export_time o) true (repeat 0%Z nexp) s.
End Loop.

Arguments mkExport {S} _ _ _ _ _. Arguments Advance {S} _. Arguments Yield {S} _.
Arguments TimestepCallbacks {S} _ _. Arguments Export {S} _.
Arguments ev_i_export {S} _. Arguments ev_indices {S} _. Arguments ev_time {S} _.
Arguments ev_iteration {S} _. Arguments ev_state {S} _.
Arguments mkSolver {S} _ _ _ _ _ _ _. Arguments simulation_time {S} _. Arguments iteration {S} _.
Arguments i_export {S} _. Arguments next_export_t {S} _. Arguments export_initial_state {S} _.
Arguments exporter_ix {S} _. Arguments state {S} _.
Arguments mkL {S} _ _ _ _ _ _ _. Arguments l_time {S} _. Arguments l_internal {S} _.
Arguments l_iteration {S} _. Arguments l_i_export {S} _. Arguments l_next {S} _.
Arguments l_ix {S} _. Arguments l_state {S} _.
Arguments do_export {S} _. Arguments body {S} _ _ _ _ _. Arguments loop {S} _ _ _ _ _ _ _.
Arguments start_l {S} _ _ _. Arguments finish {S} _ _. Arguments run_from {S} _ _ _ _ _ _ _.
Arguments iterate_2d {S} _ _ _ _. Arguments iterate_3d {S} _ _ _ _. Arguments fresh {S} _ _ _.

(** ** Restart *)

(** What HDF5Exporter.load returns under key 'time' (exporter.py:186-229):
    legacy files give an empty dictionary; other files always give the key,
    with value None when the file has no such attribute. *)
Inductive meta_time := NoKey | KeyNone | KeyTime (t : Qc).

(** Stored output: fields and metadata of the uv and the elevation file. *)
Record stored (F : Type) := mkStored { sd_fields : F; sd_uv_time : meta_time; sd_elev_time : meta_time }.
Arguments mkStored {F} _ _ _. Arguments sd_fields {F} _. Arguments sd_uv_time {F} _. Arguments sd_elev_time {F} _.

(** [metadata.update(meta_uv); metadata.update(meta_elev)], solver2d.py:884-888,
    solver.py:1095-1098: a key of the second dictionary wins. *)
Definition merge_meta (uv elev : meta_time) : meta_time :=
  match elev with NoKey => uv | _ => elev end.

(** Keyword arguments of load_state. *)
Record load_args := mkLoad {
  la_i_stored : Z; la_same_outputdir : bool;
  la_t : option Qc; la_iteration : option Z; la_i_export : option Z
}.

Section Restart.
Variables S F : Type.
(** [restore f s]: the fields of the file are loaded over the present state [s] *)
Variable restore : F -> S -> S.

(** load_state, solver2d.py:820-921 and solver.py:1007-1130 (the bookkeeping is
    the same in both).  [files i] is what is stored with index i. *)
Definition load_state (o : options) (files : Z -> option (stored F)) (a : load_args) (sv : solver S)
  : result (solver S) :=
  match files (la_i_stored a) with
  | None => Err IOError_missing_file
  | Some d =>
    let metadata := merge_meta (sd_uv_time d) (sd_elev_time d) in
    let ie := match la_i_export a with Some i => i | None => la_i_stored a end in
    let next := qz ie * o_export_time o in
    let it := match la_iteration a with Some i => i | None => qceil (next / o_dt o) end in
    let t := match la_t a with
             | Some t => Some t
             | None => match metadata with
                       | NoKey => Some (qz it * o_dt o)
                       | KeyNone => None          (* metadata.get returns None *)
                       | KeyTime t => Some t
                       end
             end in
    let eis := negb (la_same_outputdir a) in
    let offset := if eis then 0%Z else 1%Z in
    Ok (mkSolver t it ie (next + o_export_time o) eis
                 (map (fun _ => (ie + offset)%Z) (exporter_ix sv)) (restore (sd_fields d) (state sv)))
  end.
End Restart.
Arguments load_state {S F} _ _ _ _ _.

(** ** Time step adjustment, solver.py:364-405 *)
Inductive dt_mode := Split | Mode2d | Mode3d.

(** Result: (dt, dt_2d, M_modesplit).  [max2]/[max3]: CFL limits, used when
    [automatic]; [udt]/[udt2]: user options timestep and timestep_2d.
    Simplification: the asserted positivity of the options is a hypothesis of
    the theorems. *)
Definition set_time_step (mode : dt_mode) (automatic : bool) (max2 max3 udt udt2 export_time : Qc)
  : Qc * Qc * Z :=
  let '(dt, dt2, m) :=
    match mode with
    | Split =>
      let dt := if automatic then max3 else udt in
      let dt2 := if automatic then max2 else udt2 in
      let m := qceil (dt / dt2) in
      (dt, dt / qz m, m)
    | Mode2d =>
      let dt := if automatic then qmin max2 max3 else udt in (dt, dt, 1%Z)
    | Mode3d =>
      let dt := if automatic then max3 else udt in (dt, dt, 1%Z)
    end in
  let m_exp := qceil (export_time / dt) in
  let dt' := export_time / qz m_exp in
  match mode with
  | Split => let m' := qceil (dt' / dt2) in (dt', dt' / qz m', m')
  | _ => (dt', dt', m)
  end.
