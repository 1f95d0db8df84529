(** Model of thetis/callback.py.

    Simplifications: MPI rank 0 only; one HDF5 dataset is a list of rows, a row is
    a list of numbers; attributes, data types and directories are left out; values
    that h5py cannot store (wrong shape) are represented by [None]. *)
From Coq Require Import String Ascii.
From Verif Require Import Num Exporter_Model.
Open Scope string_scope.
Open Scope Z_scope.

(** ** CallbackManager, callback.py:14-59 *)
Section Manager.
Variable CB : Type.
Variable name_of : CB -> string.

(** dict of dicts: mode -> name -> callback *)
Definition cbm := list (string * list (string * CB)).
Definition cbm_new : cbm := [].
(** defaultdict lookup *)
Definition cbm_get (s : cbm) (mode : string) : list (string * CB) :=
  match dict_get s mode with Some d => d | None => [] end.
(** add, callback.py:40-48 *)
Definition cbm_add (s : cbm) (cb : CB) (mode : string) : cbm :=
  dict_set s mode (dict_set (cbm_get s mode) (name_of cb) cb).
Definition cbm_run (s : cbm) (ops : list (CB * string)) : cbm :=
  fold_left (fun s op => cbm_add s (fst op) (snd op)) ops s.

(** Python's sorted() on strings *)
Fixpoint insert_sorted (k : string) (l : list string) : list string :=
  match l with
  | [] => [k]
  | x :: r => if String.leb k x then k :: l else x :: insert_sorted k r
  end.
Definition sorted (l : list string) : list string := fold_right insert_sorted [] l.

Definition opt_list {A} (o : option A) : list A := match o with Some a => [a] | None => [] end.
(** evaluate, callback.py:50-59: the callbacks whose evaluate() is called, in order *)
Definition cbm_evaluate (s : cbm) (mode : string) : list CB :=
  let d := cbm_get s mode in
  flat_map (fun k => opt_list (dict_get d k)) (sorted (map fst d)).
End Manager.
Arguments cbm_new {CB}. Arguments cbm_get {CB} _ _. Arguments cbm_run {CB} _ _ _. Arguments cbm_evaluate {CB} _ _.
Arguments cbm_add {CB} _ _ _ _.

(** ** DiagnosticHDF5, callback.py:62-159 *)
Definition row := list Qc.
Definition h5data := string -> option (list row).
Definition h5_upd (f : h5data) (n : string) (rows : list row) : h5data :=
  fun m => if String.eqb m n then Some rows else f m.
Inductive herr := EValue | EKey | EAssert | EType | EIndex.

Record h5cfg := mkCfg { hc_vars : list string; hc_time : bool; hc_width : nat }.

(** __init__ with new_file=True, callback.py:91-112: creating a dataset twice is an error *)
Fixpoint create_datasets (f : h5data) (names : list string) : h5data * option herr :=
  match names with
  | [] => (f, None)
  | n :: r => match f n with
              | Some _ => (f, Some EValue)
              | None => create_datasets (h5_upd f n []) r
              end
  end.
Definition dataset_names (c : h5cfg) : list string :=
  if hc_time c then "time" :: hc_vars c else hc_vars c.
Definition h5_create (c : h5cfg) : h5data * option herr := create_datasets (fun _ => None) (dataset_names c).

(** rows added by resize are zero *)
Definition zero_row (w : nat) : row := repeat (qz 0) w.
(** _expand_array, callback.py:114-119 *)
Definition expand_array (f : h5data) (n : string) (w : nat) : h5data * option herr :=
  match f n with
  | None => (f, Some EKey)
  | Some rows => (h5_upd f n (rows ++ [zero_row w])%list, None)
  end.
(** _expand, callback.py:121-126 *)
Fixpoint expand_vars (f : h5data) (names : list string) (w : nat) : h5data * option herr :=
  match names with
  | [] => (f, None)
  | n :: r => match expand_array f n w with
              | (f', None) => expand_vars f' r w
              | (f', Some e) => (f', Some e)
              end
  end.
Definition expand (c : h5cfg) (f : h5data) : h5data * option herr :=
  match expand_vars f (hc_vars c) (hc_width c) with
  | (f', None) => if hc_time c then expand_array f' "time" 1 else (f', None)
  | r => r
  end.
(** _nentries, callback.py:128-129 *)
Definition nentries (c : h5cfg) (f : h5data) : Z + herr :=
  match hc_vars c with
  | [] => inr EIndex
  | n :: _ => match f n with None => inr EKey | Some rows => inl (Z.of_nat (length rows)) end
  end.

Fixpoint set_nth {A} (l : list A) (i : nat) (x : A) : list A :=
  match l, i with
  | [], _ => []
  | _ :: r, O => x :: r
  | a :: r, S j => a :: set_nth r j x
  end.
(** h5py integer indexing: negative numbers count from the end *)
Definition norm_index (i : Z) (n : nat) : option nat :=
  let j := if i <? 0 then i + Z.of_nat n else i in
  if (0 <=? j) && (j <? Z.of_nat n) then Some (Z.to_nat j) else None.
Definition write_row (f : h5data) (n : string) (ix : Z) (r : row) : h5data * option herr :=
  match f n with
  | None => (f, Some EKey)
  | Some rows => match norm_index ix (length rows) with
                 | None => (f, Some EIndex)
                 | Some j => (h5_upd f n (set_nth rows j r), None)
                 end
  end.
(** loop over variables, callback.py:157-158.  A scalar argument (not a sequence)
    is [None]: indexing it raises TypeError. *)
Fixpoint write_vars (f : h5data) (names : list string) (ix : Z) (vals : list (option row)) : h5data * option herr :=
  match names with
  | [] => (f, None)
  | n :: r =>
    match vals with
    | [] => (f, Some EIndex)
    | None :: _ => (f, Some EType)
    | Some v :: vr => match write_row f n ix v with
                      | (f', None) => write_vars f' r ix vr
                      | (f', Some e) => (f', Some e)
                      end
    end
  end.
Inductive retval := Scalar | Tuple (vals : list (option row)).

(** export, callback.py:132-159 *)
Definition h5_write (c : h5cfg) (f : h5data) (ix : Z) (v : retval) (time : option Qc) : h5data * option herr :=
  let r1 := if hc_time c then
              match time with
              | None => (f, Some EAssert)
              | Some t => write_row f "time" ix [t]
              end
            else (f, None) in
  match r1 with
  | (f1, Some e) => (f1, Some e)
  | (f1, None) => match v with
                  | Scalar => match hc_vars c with [] => (f1, None) | _ => (f1, Some EType) end
                  | Tuple vals => write_vars f1 (hc_vars c) ix vals
                  end
  end.
Definition h5_append (c : h5cfg) (f : h5data) (v : retval) (time : option Qc) : h5data * option herr :=
  match expand c f with
  | (f1, Some e) => (f1, Some e)
  | (f1, None) => match nentries c f1 with
                  | inr e => (f1, Some e)
                  | inl n => h5_write c f1 (n - 1) v time
                  end
  end.
Definition diag_export (c : h5cfg) (f : h5data) (v : retval) (time : option Qc) (index : option Z) : h5data * option herr :=
  match index with
  | None => h5_append c f v time
  | Some i => match nentries c f with
              | inr e => (f, Some e)
              | inl n => if n <? i then (f, Some EAssert)
                         else if i =? n then h5_append c f v time
                         else h5_write c f i v time
              end
  end.

(** ** DiagnosticCallback, callback.py:162-302 *)

(** Extended time bound: Python's [x or -inf] / [x or inf] *)
Definition truthy (x : Qc) : bool := negb (Qceqb x (qz 0)).
Definition opt_truthy (o : option Qc) : option Qc :=
  match o with Some x => if truthy x then Some x else None | None => None end.
(** callback.py:205-206 and 296: whether evaluate() goes on at [t] *)
Definition in_window (start_time end_time : option Qc) (t : Qc) : bool :=
  negb (match opt_truthy start_time with Some s => Qcltb t s | None => false end
        || match opt_truthy end_time with Some e => Qcltb e t | None => false end).

Record callback := mkCb {
  cb_cfg : h5cfg; cb_log : bool; cb_hdf5 : bool;
  cb_start : option Qc; cb_end : option Qc;
  cb_create : bool; cb_init : bool
}.
(** set_write_mode, callback.py:214-221 *)
Definition set_write_mode (cb : callback) (append : bool) : callback :=
  mkCb (cb_cfg cb) (cb_log cb) (cb_hdf5 cb) (cb_start cb) (cb_end cb) (negb append) (cb_init cb).
Definition cb_initialised (cb : callback) : callback :=
  mkCb (cb_cfg cb) (cb_log cb) (cb_hdf5 cb) (cb_start cb) (cb_end cb) (cb_create cb) true.

(** push_to_hdf5 and _create_hdf5_file, callback.py:223-239 and 280-289; [f] is the
    diagnostic file of this callback ([fun _ => None] if there is none) *)
Definition push_to_hdf5 (cb : callback) (f : h5data) (time : Qc) (v : retval) (index : option Z)
  : callback * h5data * option herr :=
  let '(cb1, f1, e1) :=
    if cb_init cb then (cb, f, None)
    else if cb_create cb then
      match h5_create (cb_cfg cb) with
      | (f', None) => (cb_initialised cb, f', None)
      | (f', Some e) => (cb, f', Some e)
      end
    else (cb_initialised cb, f, None) in
  match e1 with
  | Some e => (cb1, f1, Some e)
  | None => let '(f2, e2) := diag_export (cb_cfg cb1) f1 v (Some time) index in (cb1, f2, e2)
  end.

(** evaluate, callback.py:291-302.  [v] is what __call__ returns; message_str
    (called with *args) needs a sequence. *)
Definition cb_evaluate (cb : callback) (f : h5data) (t : Qc) (v : retval) (index : option Z)
  : callback * h5data * option herr :=
  if in_window (cb_start cb) (cb_end cb) t then
    if cb_log cb && match v with Scalar => true | _ => false end then (cb, f, Some EType)
    else if cb_hdf5 cb then push_to_hdf5 cb f t v index else (cb, f, None)
  else (cb, f, None).

(** ** ScalarConservationCallback.__call__, callback.py:323-328.  Division by zero
    is [None] (ZeroDivisionError, or nan for numpy scalars). *)
Definition scalar_conservation (init : option Qc) (value : Qc) : option Qc * option (Qc * Qc) :=
  let v0 := match init with Some v => v | None => value end in
  (Some v0, if Qceqb v0 (qz 0) then None else Some (value, (value - v0) / v0)%Qc).

(** ** MinMaxConservationCallback.__call__, callback.py:450-456 *)
Definition minmax_conservation (init : option (Qc * Qc)) (value : Qc * Qc)
  : option (Qc * Qc) * (Qc * Qc * Qc * Qc) :=
  let v0 := match init with Some v => v | None => value end in
  let overshoot := qmax (snd value - snd v0)%Qc (qz 0) in
  let undershoot := qmin (fst value - fst v0)%Qc (qz 0) in
  (Some v0, (fst value, snd value, undershoot, overshoot)).

(** states threaded through a list of observations *)
Fixpoint run_obs {S V O} (step : S -> V -> S * O) (s : S) (vs : list V) : list O :=
  match vs with [] => [] | v :: r => let '(s', o) := step s v in o :: run_obs step s' r end.

(** TracerOvershootCallBack minmax, callback.py:477-482: extrema of each process's
    part, reduced over processes *)
Definition fold1 (op : Qc -> Qc -> Qc) (x : Qc) (l : list Qc) : Qc := fold_left op l x.
Definition local_min (p : Qc * list Qc) : Qc := fold1 qmin (fst p) (snd p).
Definition local_max (p : Qc * list Qc) : Qc := fold1 qmax (fst p) (snd p).
Definition global_minmax (p : Qc * list Qc) (ps : list (Qc * list Qc)) : Qc * Qc :=
  (fold1 qmin (local_min p) (map local_min ps), fold1 qmax (local_max p) (map local_max ps)).

(** ** AccumulatorCallback.__call__, callback.py:613-619 *)
Record acc := mkAcc { a_dt : Qc; a_integrant : Qc; a_old : option Qc }.
Definition acc_new (dt : Qc) : acc := mkAcc dt (qz 0) None.
Definition acc_call (s : acc) (v : Qc) : acc * retval :=
  (mkAcc (a_dt s)
     (match a_old s with Some o => a_integrant s + qq 1 2 * (o + v) * a_dt s | None => a_integrant s end)%Qc
     (Some v), Scalar).
Definition acc_run (s : acc) (vs : list Qc) : acc := fold_left (fun s v => fst (acc_call s v)) vs s.

(** ** DetectorsCallback *)
(** generated names, callback.py:521-524 *)
Definition detector_name (n i : nat) : string :=
  "detector" ++ zpad (String.length (dec (N.of_nat n))) (dec (N.of_nat i)).
Definition detector_names (n : nat) : list string := map (detector_name n) (seq 0 n).
(** _values_per_field, callback.py:549-558 *)
Fixpoint values_per_field {A} (dims : list nat) (values : list A) : list (list A) :=
  match dims with
  | [] => []
  | d :: r => firstn d values :: values_per_field r (skipn d values)
  end.
(** __call__, callback.py:573-585: horizontal stacking of the per-field arrays.
    [field_vals f d] is the value of field [f] at detector [d]. *)
Definition detector_row {A} (field_vals : list (nat -> list A)) (d : nat) : list A :=
  concat (map (fun fv => fv d) field_vals).
Definition detector_rows {A} (ndet : nat) (field_vals : list (nat -> list A)) : list (list A) :=
  map (detector_row field_vals) (seq 0 ndet).

(** ** Sampling heights *)
(** numpy.linspace(a, b, n), entry i *)
Definition linspace (a b : Qc) (n i : nat) : Qc :=
  if Nat.leb n 1 then a else (a + (b - a) * (qn i / qn (n - 1)))%Qc.
(** VerticalProfileCallback._construct_z_array, callback.py:907-908 and 926-928 *)
Definition profile_z (depth elev : Qc) (npoints i : nat) : Qc :=
  let epsilon := qq 1 100 in
  let z_min := (- (depth - epsilon))%Qc in
  let z_max := (elev - epsilon)%Qc in
  (z_max + (z_min - z_max) * linspace (qz 0) (qz 1) npoints i)%Qc.
(** TransectCallback._update_coords, callback.py:1061-1069 *)
Definition transect_bounds (depth elev : Qc) (force_min force_max : option Qc) : Qc * Qc :=
  let epsilon := qq 1 100000 in
  let z_min := (- (depth - epsilon))%Qc in
  let z_max := (elev - epsilon)%Qc in
  (match force_min with Some m => qmax z_min m | None => z_min end,
   match force_max with Some m => qmin z_max m | None => z_max end).
Definition transect_z (depth elev : Qc) (force_min force_max : option Qc) (nz k : nat) : Qc :=
  let '(z_min, z_max) := transect_bounds depth elev force_min force_max in
  linspace z_max z_min nz k.
(** TimeSeriesCallback3D._initialize, callback.py:813-821 *)
Definition timeseries_z (bathymetry z : Qc) : Qc :=
  let min_z := (- bathymetry)%Qc in
  if Qcltb z min_z then (min_z + qq 1 10)%Qc else z.

(** TransectCallback.__call__, callback.py:1080-1096: coordinates are raveled row by
    row (level by level), the values reshaped to the same shape *)
Fixpoint reshape {A} (nrows ncols : nat) (l : list A) : list (list A) :=
  match nrows with O => [] | S r => firstn ncols l :: reshape r ncols (skipn ncols l) end.
Definition transect_values {P A} (at_ : P -> A) (points : list (list P)) (nz nxy : nat) : list (list A) :=
  reshape nz nxy (map at_ (concat points)).

(** Variable names of the station and profile callbacks, callback.py:670-672, 787-789, 888-890:
    the part of the field name before the first underscore *)
Fixpoint before_underscore (s : string) : string :=
  match s with
  | EmptyString => ""
  | String c r => if Ascii.eqb c "_" then "" else String c (before_underscore r)
  end.
