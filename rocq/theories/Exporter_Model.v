(** Model of thetis/exporter.py (HDF5Exporter, VTKExporter, ExportManager) and
    of the export methods of the two solvers.

    Simplifications: a file system is a function from path to content; the
    content of a checkpoint is the stored field and the optional time
    attribute; the initial-time attribute, mesh and MPI are left out; a field is
    an arbitrary type [F].  Firedrake's VTKFile is represented by its file
    counter (itertools.count, starts at 0). *)
From Coq Require Import String Ascii DecimalString.
From Verif Require Import Num.
Open Scope string_scope.
Open Scope Z_scope.

(** ** File names *)

(** decimal digits of a natural number, as produced by Python's str() *)
Definition dec (n : N) : string := NilEmpty.string_of_uint (N.to_uint n).

Fixpoint zeros (n : nat) : string := match n with O => "" | S m => String "0" (zeros m) end.
(** zero padding on the left to width [w] *)
Definition zpad (w : nat) (s : string) : string := zeros (w - String.length s) ++ s.
(** Python's '{:05d}' for any integer (sign-aware zero padding) *)
Definition fmt05d (i : Z) : string :=
  match i with
  | Zneg p => String "-" (zpad 4 (dec (N.pos p)))
  | _ => zpad 5 (dec (Z.to_N i))
  end.

(** HDF5Exporter.gen_filename, exporter.py:150-159.  [os.path.join] is modelled
    by inserting "/" (outputdir without trailing slash). *)
Definition gen_filename (outputdir prefix : string) (legacy : bool) (iexport : Z) : string :=
  outputdir ++ "/" ++ (prefix ++ "_" ++ fmt05d iexport ++ (if legacy then "" else ".h5")).

(** Python slicing s[:n] *)
Definition str_prefix (n : nat) (s : string) : string := String.substring 0 n s.

(** VTKExporter.__init__, exporter.py:87-91: the suffix test *)
Definition vtk_filename (filename : string) : string :=
  let suffix := ".pvd" in
  if (Nat.ltb (String.length filename) (String.length suffix + 1)) ||
     negb (String.eqb (str_prefix (String.length suffix) filename) suffix)
  then filename ++ suffix else filename.

(** ** HDF5 exporter *)
Section HDF5.
Variable F : Type.

Inductive exn := ValueError | IOError | TypeError | OtherError.

(** content of a checkpoint file; [c_field = None]: opened and closed without a field *)
Record content := mkContent { c_field : option F; c_time : option Qc }.
Definition fs := string -> option content.
Definition fs_write (m : fs) (name : string) (c : content) : fs :=
  fun n => if String.eqb n name then Some c else m n.

Record h5exporter := mkH5 {
  h_dir : string; h_prefix : string; h_legacy : bool; h_include_time : bool; h_next : Z
}.
Definition h_with_next (e : h5exporter) (i : Z) : h5exporter :=
  mkH5 (h_dir e) (h_prefix e) (h_legacy e) (h_include_time e) i.

(** set_next_export_ix, exporter.py:55-57 *)
Definition h5_set_next (e : h5exporter) (i : Z) : h5exporter := h_with_next e i.

(** export_as_index, exporter.py:161-191.  Raises ValueError after the file has
    been opened in mode 'w'; then the index is not advanced. *)
Definition h5_export_as_index (e : h5exporter) (m : fs) (i : Z) (f : F) (time : option Qc)
  : h5exporter * fs * option exn :=
  let name := gen_filename (h_dir e) (h_prefix e) (h_legacy e) i in
  if h_legacy e then
    (h_with_next e (i + 1), fs_write m name (mkContent (Some f) None), None)
  else if h_include_time e then
    match time with
    | None => (e, fs_write m name (mkContent None None), Some ValueError)
    | Some t => (h_with_next e (i + 1), fs_write m name (mkContent (Some f) (Some t)), None)
    end
  else (h_with_next e (i + 1), fs_write m name (mkContent (Some f) None), None).

(** export, exporter.py:193-202 *)
Definition h5_export (e : h5exporter) (m : fs) (f : F) (time : option Qc) : h5exporter * fs * option exn :=
  h5_export_as_index e m (h_next e) f time.

(** What load returns under key 'time' *)
Inductive meta := MetaEmpty | MetaTime (t : option Qc).

(** load, exporter.py:204-242 *)
Definition h5_load (e : h5exporter) (m : fs) (i : Z) : (F * meta) + exn :=
  match m (gen_filename (h_dir e) (h_prefix e) (h_legacy e) i) with
  | None => inr IOError
  | Some c =>
    match c_field c with
    | None => inr IOError
    | Some f => inl (f, if h_legacy e then MetaEmpty else MetaTime (c_time c))
    end
  end.

(** Operations a user can perform *)
Inductive h5op :=
| OpExport (f : F) (t : option Qc)
| OpExportAs (i : Z) (f : F) (t : option Qc)
| OpSetNext (i : Z).

Definition h5_step (s : h5exporter * fs) (op : h5op) : h5exporter * fs :=
  let '(e, m) := s in
  match op with
  | OpExport f t => fst (h5_export e m f t)
  | OpExportAs i f t => fst (h5_export_as_index e m i f t)
  | OpSetNext i => (h5_set_next e i, m)
  end.
Definition h5_run (s : h5exporter * fs) (ops : list h5op) : h5exporter * fs := fold_left h5_step ops s.
End HDF5.
Arguments mkContent {F} _ _. Arguments c_field {F} _. Arguments c_time {F} _.
Arguments h5_export_as_index {F} _ _ _ _ _. Arguments h5_export {F} _ _ _ _. Arguments h5_load {F} _ _ _.
Arguments OpExport {F} _ _. Arguments OpExportAs {F} _ _ _. Arguments OpSetNext {F} _.
Arguments h5_step {F} _ _. Arguments h5_run {F} _ _.

(** ** VTK exporter *)

(** [v_counter]: VTKFile's file counter; a written file is recorded as
    (file number, time value). *)
Record vtk := mkVtk { v_next : Z; v_counter : Z; v_written : list (Z * Z) }.
(** __init__, exporter.py:69-94: the counter of a new VTKFile is 0 *)
Definition vtk_new (next : Z) : vtk := mkVtk next 0 [].
(** set_next_export_ix, exporter.py:96-101 *)
Definition vtk_set_next (v : vtk) (i : Z) : vtk := mkVtk i i (v_written v).
(** export, exporter.py:103-120 *)
Definition vtk_export (v : vtk) : vtk :=
  mkVtk (v_next v + 1) (v_counter v + 1) (v_written v ++ [(v_counter v, v_next v)])%list.
Inductive vtkop := VExport | VSetNext (i : Z).
Definition vtk_step (v : vtk) (op : vtkop) : vtk :=
  match op with VExport => vtk_export v | VSetNext i => vtk_set_next v i end.

(** ** Export manager *)

(** Result of calling a user supplied preprocessing function *)
Inductive outcome := Fine | Raises (e : exn).

(** A registered exporter: its kind and its next index.
    [None] time with include_time raises in the HDF5 case. *)
Inductive kind := KVtk | KHdf5 (include_time : bool).
Definition dict := list (string * nat).   (* field name -> id of a preprocessing function *)
Definition heap := nat -> dict.           (* dictionaries are shared by reference *)
(** reference of the default argument [preproc_funcs={}], exporter.py:265: one
    dictionary object for all managers created without that argument *)
Definition default_ref : nat := 0.

Record manager := mkManager {
  m_exporters : list (string * (kind * Z));   (* OrderedDict *)
  m_preproc : nat                             (* reference of preproc_callbacks *)
}.

Inductive mevent :=
| EvPreproc (field : string) (fn : nat)
| EvWrite (field : string) (ix : Z) (time : option Qc).

Fixpoint dict_get {A} (d : list (string * A)) (k : string) : option A :=
  match d with [] => None | (k', v) :: r => if String.eqb k k' then Some v else dict_get r k end.
(** dictionary assignment: an existing key keeps its position *)
Fixpoint dict_set {A} (d : list (string * A)) (k : string) (v : A) : list (string * A) :=
  match d with
  | [] => [(k, v)]
  | (k', v') :: r => if String.eqb k k' then (k, v) :: r else (k', v') :: dict_set r k v
  end.

(** ExportManager.__init__, exporter.py:262-296, without the initial fields *)
Definition manager_new (preproc_funcs : option nat) : manager :=
  mkManager [] (match preproc_funcs with Some r => r | None => default_ref end).

(** add_export, exporter.py:298-348 for a Function-valued field *)
Definition add_export (h : heap) (m : manager) (field : string) (k : kind) (next : Z)
  (preproc : option nat) : heap * manager :=
  let h' := match preproc with
            | None => h
            | Some fn => fun r => if Nat.eqb r (m_preproc m) then dict_set (h r) field fn else h r
            end in
  (h', mkManager (dict_set (m_exporters m) field (k, next)) (m_preproc m)).

(** set_next_export_ix, exporter.py:348-351 *)
Definition manager_set_next (m : manager) (i : Z) : manager :=
  mkManager (map (fun p => (fst p, (fst (snd p), i))) (m_exporters m)) (m_preproc m).

Section Export.
(** behaviour of the preprocessing function with the given id *)
Variable call : nat -> outcome.

(** export of one exporter: new index and exception *)
Definition export_one (k : kind) (ix : Z) (time : option Qc) : Z * option exn :=
  match k, time with
  | KHdf5 true, None => (ix, Some ValueError)
  | _, _ => (ix + 1, None)
  end.

(** ExportManager.export, exporter.py:353-375; an exception leaves the exporters
    visited so far advanced. *)
Fixpoint export_all (d : dict) (l : list (string * (kind * Z))) (time : option Qc)
  : list (string * (kind * Z)) * list mevent * option exn :=
  match l with
  | [] => ([], [], None)
  | (key, (k, ix)) :: r =>
    let pre := match dict_get d key with None => [] | Some fn => [EvPreproc key fn] end in
    match (match dict_get d key with None => Fine | Some fn => call fn end) with
    | Raises e => (l, pre, Some e)
    | Fine =>
      let '(ix', ex) := export_one k ix time in
      match ex with
      | Some e => ((key, (k, ix')) :: r, pre, Some e)
      | None =>
        let '(r', evs, ex') := export_all d r time in
        ((key, (k, ix')) :: r', (pre ++ EvWrite key ix time :: evs)%list, ex')
      end
    end
  end.

Definition manager_export (h : heap) (m : manager) (time : option Qc) : manager * list mevent * option exn :=
  let '(l, evs, ex) := export_all (h (m_preproc m)) (m_exporters m) time in
  (mkManager l (m_preproc m), evs, ex).

(** FlowSolver2d.export, solver2d.py:810-817 and solver.py:997-1002:
    [try: e.export(time=time) except TypeError: e.export()] for each manager *)
Fixpoint solver_export (h : heap) (ms : list manager) (time : option Qc)
  : list manager * list mevent * option exn :=
  match ms with
  | [] => ([], [], None)
  | m :: r =>
    let '(m1, ev1, ex1) := manager_export h m time in
    let '(m2, ev2, ex2) :=
      match ex1 with
      | Some TypeError => let '(m2, ev2, ex2) := manager_export h m1 None in (m2, (ev1 ++ ev2)%list, ex2)
      | _ => (m1, ev1, ex1)
      end in
    match ex2 with
    | Some e => (m2 :: r, ev2, Some e)
    | None => let '(r', ev3, ex3) := solver_export h r time in (m2 :: r', (ev2 ++ ev3)%list, ex3)
    end
  end.

(** FlowSolver.export (3D), solver.py:985-1004: the 3D velocity is the deviation
    [uv] from the depth average [dav]; the total is written.  No try/finally:
    an exception skips the restoring subtraction. *)
Definition solver3d_export (h : heap) (ms : list manager) (time : option Qc) (uv dav : Qc)
  : Qc * (list manager * list mevent * option exn) :=
  let uv1 := (uv + dav)%Qc in
  let r := solver_export h ms time in
  match snd r with
  | None => ((uv1 - dav)%Qc, r)
  | Some _ => (uv1, r)
  end.
End Export.

(** Operations on one manager *)
Inductive mop := MExport (t : option Qc) | MSetNext (i : Z).
