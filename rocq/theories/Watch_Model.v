(** The 3D time loop with what an export really does to the velocity.

    TimeLoop_Model.v leaves the fields alone when it exports. FlowSolver.export
    (solver.py:985-1004) adds the depth average to uv_3d, lets the exporters
    write, and subtracts it again; an exporter that raises stops the run there.

    Simplification: the callbacks and exporters read the fields and write files;
    whether they raise is given for each time. *)
From Coq Require Import SpecFloat.
From Verif Require Import Num TimeLoop_Model.

Section Watched.
(** degrees of freedom of the velocity, and everything else in the solver *)
Variables D X : Type.
Record fields3 := mkF3 { uv_3d : D -> Qc; uv_dav_3d : D -> Qc; others : X }.
Variable adv : Qc -> fields3 -> fields3.
(** an exporter raises at this time *)
Variable fails : Qc -> bool.

(** [self.fields.uv_3d += self.fields.uv_dav_3d], solver.py:996 *)
Definition add_dav (s : fields3) : fields3 :=
  mkF3 (fun i => uv_3d s i + uv_dav_3d s i) (uv_dav_3d s) (others s).
(** [self.fields.uv_3d -= self.fields.uv_dav_3d], solver.py:1004 *)
Definition sub_dav (s : fields3) : fields3 :=
  mkF3 (fun i => uv_3d s i - uv_dav_3d s i) (uv_dav_3d s) (others s).

(** FlowSolver.export, solver.py:985-1004: the fields left behind, the fields the
    exporters see, and whether an exception was raised. *)
Definition export_fields (t : Qc) (s : fields3) : fields3 * fields3 * bool :=
  let s1 := add_dav s in
  if fails t then (s1, s1, true) else (sub_dav s1, s1, false).

Definition do_export_w (l : lstate fields3) : lstate fields3 * event fields3 * bool :=
  let '(kept, seen, raised) := export_fields (l_time l) (l_state l) in
  (mkL (l_time l) (l_internal l) (l_iteration l) (l_i_export l) (l_next l)
       (map (Z.add 1) (l_ix l)) kept,
   Export (mkExport (l_i_export l) (l_ix l) (l_time l) (l_iteration l) seen), raised).

(** One pass through the loop, solver.py:1319-1341. *)
Definition body_w (o : options) (t0 : Qc) (l : lstate fields3) : lstate fields3 * list (event fields3) * bool :=
  let s' := adv (l_time l) (l_state l) in
  let n' := Datatypes.S (l_internal l) in
  let t' := t0 + qn n' * o_dt o in
  let evs := [Advance (l_time l); TimestepCallbacks t' s'] in
  if Qcleb (l_next l - t_epsilon) t' then
    let l1 := mkL t' n' (l_iteration l + 1) (l_i_export l + 1) (l_next l + o_export_time o) (l_ix l) s' in
    let '(l2, e, raised) := do_export_w l1 in (l2, evs ++ [e], raised)
  else (mkL t' n' (l_iteration l + 1) (l_i_export l) (l_next l) (l_ix l) s', evs, false).

(** The loop ends, or an export raises and leaves the solver as it is. *)
Inductive ending := Ended (l : lstate fields3) (evs : list (event fields3)) | Raised (l : lstate fields3) (evs : list (event fields3)).

(** solver.py:1317; fuel exhaustion is an explicit error. *)
Fixpoint loop_w (fuel : nat) (o : options) (end_time t0 : Qc) (l : lstate fields3) : result ending :=
  match fuel with
  | O => Err OutOfFuel
  | Datatypes.S f =>
    if Qcleb (l_time l) (end_time - t_epsilon) then
      let '(l', evs, raised) := body_w o t0 l in
      if raised then Ok (Raised l' evs) else
      match loop_w f o end_time t0 l' with
      | Err e => Err e
      | Ok (Ended l'' evs') => Ok (Ended l'' (evs ++ evs'))
      | Ok (Raised l'' evs') => Ok (Raised l'' (evs ++ evs'))
      end
    else Ok (Ended l [])
  end.
End Watched.
Arguments uv_3d {D X} _ _. Arguments uv_dav_3d {D X} _ _. Arguments others {D X} _. Arguments mkF3 {D X} _ _ _.
Arguments add_dav {D X} _. Arguments Ended {D X} _ _. Arguments Raised {D X} _ _.

(** One entry of uv_3d through an export in double precision (IEEE 754 with 53 bits,
    round to nearest), solver.py:996 and 1004. *)
Definition export_entry_float (uv dav : spec_float) : spec_float :=
  SFsub 53 1024 (SFadd 53 1024 uv dav) dav.
