(** Model of the files that station callbacks write and the inversion reads back
    (callback.py:628-754 with 223-302, inversion_tools.py:733-773), of the tests and
    the outcome of minimize (inversion_tools.py:514-588), of the masked control
    fields (inversion_tools.py:94-150) and of the files kept by the manager
    (inversion_tools.py:176-206, 293-326).

    Simplifications: a file is named by its name inside the one directory that both
    sides use; attributes other than the coordinates are left out; the vertex-only
    mesh evaluation of the callback is the value in the schedule. *)
From Coq Require Import String Ascii.
From Verif Require Import Num Exporter_Model Callback_Model Callback_Spec.
Open Scope string_scope.
Open Scope Z_scope.

(* ------------------------------------------------------------------ *)
(** * Names *)
(** str.replace(' ', '_'), callback.py:230 *)
Fixpoint unspace (s : string) : string :=
  match s with
  | EmptyString => EmptyString
  | String c r => String (if Ascii.eqb c " " then "_" else c)%char (unspace r)
  end.
(** The name of a TimeSeriesCallback2D, callback.py:634, 670-674 *)
Definition ts_name (loc : string) (fields : list string) : string :=
  "timeseries_" ++ loc ++ "_" ++ String.concat "-" (map before_underscore fields).
(** The name of a callback's file, callback.py:230 *)
Definition diag_file (name : string) : string := "diagnostic_" ++ unspace name ++ ".hdf5".
(** The names of the files asked for, inversion_tools.py:748-752 *)
Definition obs_file (s v : string) : string := "diagnostic_timeseries_" ++ s ++ "_" ++ v ++ ".hdf5".

(* ------------------------------------------------------------------ *)
(** * Writing *)
(** A diagnostic file: its data sets and the coordinates of its attributes *)
Record h5file := mk_h5 { f_data : h5data; f_xy : option (Qc * Qc) }.
Definition disk := list (string * h5file).
Definition no_data : h5data := fun _ => None.
Definition data_of (d : disk) (n : string) : h5data :=
  match dict_get d n with Some h => f_data h | None => no_data end.

(** TimeSeriesCallback2D.__init__, callback.py:639-689: name, coordinates and the
    callback of which it is made ([array_dim = 1], one data set per field) *)
Record sta := mk_sta { s_loc : string; s_fields : list string; s_xy : Qc * Qc; s_cb : callback }.
Definition new_sta (loc : string) (fields : list string) (x y : Qc) (start_time end_time : option Qc) (log : bool) : sta :=
  mk_sta loc fields (x, y)
    (mkCb (mkCfg (map before_underscore fields) true 1) log true start_time end_time true false).
Definition sta_file (s : sta) : string := diag_file (ts_name (s_loc s) (s_fields s)).

(** evaluate, callback.py:291-302, with the file on disk: attributes are written when
    the file is created (callback.py:91-112) *)
Definition sta_evaluate (s : sta) (d : disk) (e : entry) : sta * disk * option herr :=
  if in_window (cb_start (s_cb s)) (cb_end (s_cb s)) (e_time e) then
    let '(cb', f', r) := cb_evaluate (s_cb s) (data_of d (sta_file s)) (e_time e) (Tuple (map Some (e_vals e))) None in
    let xy := if negb (cb_init (s_cb s)) && cb_create (s_cb s) then Some (s_xy s)
              else match dict_get d (sta_file s) with Some h => f_xy h | None => None end in
    (mk_sta (s_loc s) (s_fields s) (s_xy s) cb', dict_set d (sta_file s) (mk_h5 f' xy), r)
  else (s, d, None).

(** A run: any interleaving of evaluations of the stations; stops at the first exception *)
Fixpoint sta_run (ss : list sta) (d : disk) (sched : list (nat * entry)) : list sta * disk * option herr :=
  match sched with
  | [] => (ss, d, None)
  | (i, e) :: r =>
      match nth_error ss i with
      | None => sta_run ss d r
      | Some s =>
          match sta_evaluate s d e with
          | (s', d', None) => sta_run (set_nth ss i s') d' r
          | (s', d', Some x) => (set_nth ss i s', d', Some x)
          end
      end
  end.

(* ------------------------------------------------------------------ *)
(** * Reading *)
Inductive lerr := NoFile | NoKey | NoStations.
Inductive lres (A : Type) := LOk (a : A) | LErr (e : lerr).
Arguments LOk {A}. Arguments LErr {A}.
(** What is read of one station: times, values, coordinates *)
Definition series := (list Qc * list Qc * (Qc * Qc))%type.
(** inversion_tools.py:757-766 *)
Definition load_one (d : disk) (v s : string) : lres series :=
  match dict_get d (obs_file s v) with
  | None => LErr NoFile
  | Some h =>
      match f_data h "time" with
      | None => LErr NoKey
      | Some t =>
          match f_data h v with
          | None => LErr NoKey
          | Some vs => match f_xy h with None => LErr NoKey | Some xy => LOk (concat t, concat vs, xy) end
          end
      end
  end.
Fixpoint load_each (d : disk) (v : string) (names : list string) : lres (list series) :=
  match names with
  | [] => LOk []
  | s :: r =>
      match load_one d v s with
      | LErr e => LErr e
      | LOk x => match load_each d v r with LErr e => LErr e | LOk l => LOk (x :: l) end
      end
  end.
(** load_scalar_observation_data, inversion_tools.py:733-773: without stations the
    unpacking of the coordinates (line 768) raises *)
Definition load_scalar (d : disk) (v : string) (names : list string) : lres (list series) :=
  match load_each d v names with
  | LErr e => LErr e
  | LOk [] => LErr NoStations
  | LOk l => LOk l
  end.
