(** Specification vocabulary for exporters. *)
From Coq Require Import String Ascii.
From Verif Require Import Num Exporter_Model.
Open Scope string_scope.
Open Scope Z_scope.

(** Abstract checkpoint store: the index of the next export and, for each index,
    what was stored last. *)
Section Abs.
Variable F : Type.
Record store := mkStore { s_next : Z; s_at : Z -> option (content F) }.

Definition store_put (s : store) (i : Z) (c : content F) (ok : bool) : store :=
  mkStore (if ok then i + 1 else s_next s) (fun j => if j =? i then Some c else s_at s j).

(** Content written for a field: legacy files carry no time; a missing time when one
    is required leaves an unusable file and does not advance the index. *)
Definition stored_content (legacy include_time : bool) (f : F) (t : option Qc) : content F * bool :=
  if legacy then (mkContent (Some f) None, true)
  else if include_time then
    match t with Some t => (mkContent (Some f) (Some t), true) | None => (mkContent None None, false) end
  else (mkContent (Some f) None, true).

Definition store_step (legacy include_time : bool) (s : store) (op : h5op F) : store :=
  match op with
  | OpExport f t => let '(c, ok) := stored_content legacy include_time f t in store_put s (s_next s) c ok
  | OpExportAs i f t => let '(c, ok) := stored_content legacy include_time f t in store_put s i c ok
  | OpSetNext i => mkStore i (s_at s)
  end.
End Abs.
Arguments mkStore {F} _ _. Arguments s_next {F} _. Arguments s_at {F} _. Arguments store_step {F} _ _ _ _.
Arguments stored_content {F} _ _ _ _. Arguments store_put {F} _ _ _ _.

(** [s] ends with [suffix] *)
Definition ends_with (suffix s : string) : Prop := exists pre, s = pre ++ suffix.

(** What one successful export call of a manager must show for an exporter:
    its preprocessing function (if any), then the file with the current index. *)
Definition expected_events (d : dict) (time : option Qc) (p : string * (kind * Z)) : list mevent :=
  (match dict_get d (fst p) with None => [] | Some fn => [EvPreproc (fst p) fn] end
   ++ [EvWrite (fst p) (snd (snd p)) time])%list.

(** all exporters of a manager hold next index [i] *)
Definition lockstep (m : manager) (i : Z) : Prop := Forall (fun p => snd (snd p) = i) (m_exporters m).

(** no exporter of this manager can fail *)
Definition no_failure (call : nat -> outcome) (h : heap) (m : manager) (time : option Qc) : Prop :=
  Forall (fun p => (forall fn, dict_get (h (m_preproc m)) (fst p) = Some fn -> call fn = Fine) /\
                   (fst (snd p) = KHdf5 true -> time <> None)) (m_exporters m).

(** an export call that must succeed *)
Definition usable {F} (legacy include_time : bool) (p : F * option Qc) : Prop :=
  legacy = true \/ include_time = false \/ snd p <> None.

(** one operation on a manager, collecting what is observed *)
Definition mstep (call : nat -> outcome) (h : heap) (s : manager * list mevent) (op : mop) : manager * list mevent :=
  match op with
  | MExport t => let '(m', evs, _) := manager_export call h (fst s) t in (m', (snd s ++ evs)%list)
  | MSetNext i => (manager_set_next (fst s) i, snd s)
  end.
(** index after a history, for a manager in lockstep at [i] *)
Fixpoint index_after (i : Z) (ops : list mop) : Z :=
  match ops with [] => i | MExport _ :: r => index_after (i + 1) r | MSetNext j :: r => index_after j r end.


(** The observations of a whole history, for a manager whose exporters all start
    at index [i]: each export call shows every field once, in order, with the
    current common index. *)
Fixpoint expected_history (d : dict) (keys : list (string * kind)) (i : Z) (ops : list mop) : list mevent :=
  match ops with
  | [] => []
  | MSetNext j :: r => expected_history d keys j r
  | MExport t :: r =>
    (flat_map (fun p => (match dict_get d (fst p) with None => [] | Some fn => [EvPreproc (fst p) fn] end)
                        ++ [EvWrite (fst p) i t]) keys ++ expected_history d keys (i + 1) r)%list
  end.
