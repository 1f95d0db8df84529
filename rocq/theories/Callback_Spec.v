(** Specification vocabulary for callbacks. *)
From Coq Require Import String Ascii Sorting.Sorted.
From Verif Require Import Num Exporter_Model Callback_Model.
Open Scope string_scope.
Open Scope Z_scope.

(** [cb] is the last callback added under its name in mode [mode] *)
Definition last_added {CB} (name_of : CB -> string) (ops : list (CB * string)) (mode : string) (cb : CB) : Prop :=
  exists pre post, ops = (pre ++ (cb, mode) :: post)%list /\
    forall cb', In (cb', mode) post -> name_of cb' <> name_of cb.

(** strict alphabetical order *)
Definition str_lt (a b : string) : Prop := String.compare a b = Lt.

(** One entry of a diagnostic time series *)
Record entry := mkEntry { e_time : Qc; e_vals : list row }.

(** A well-formed description of the file: at least one variable, distinct names,
    none called "time" if time is included. *)
Definition good_cfg (c : h5cfg) : Prop := hc_vars c <> [] /\ NoDup (dataset_names c).

(** All datasets of the file have [n] rows. *)
Definition rectangular (c : h5cfg) (f : h5data) (n : nat) : Prop :=
  forall d, In d (dataset_names c) -> exists rows, f d = Some rows /\ length rows = n.

(** The file holds exactly the entries [L]. *)
Definition holds (c : h5cfg) (f : h5data) (L : list entry) : Prop :=
  (forall j d, nth_error (hc_vars c) j = Some d -> f d = Some (map (fun e => nth j (e_vals e) []) L)) /\
  (hc_time c = true -> f "time" = Some (map (fun e => [e_time e]) L)).

(** Position meant by an optional index in a list of length [n]; [None]: no such position *)
Definition position (index : option Z) (n : nat) : option nat :=
  match index with
  | None => Some n
  | Some i => if Z.of_nat n <? i then None
              else if 0 <=? i then Some (Z.to_nat i)
              else if - Z.of_nat n <=? i then Some (Z.to_nat (Z.of_nat n + i)) else None
  end.
(** replace entry [p], or append if [p] is the length *)
Definition put (L : list entry) (p : nat) (e : entry) : list entry := (firstn p L ++ e :: skipn (S p) L)%list.
Definition spec_export (L : list entry) (e : entry) (index : option Z) : list entry :=
  match position index (length L) with Some p => put L p e | None => L end.

(** An export request, and its execution *)
Definition request := (entry * option Z)%type.
Definition complete (c : h5cfg) (e : entry) : Prop := length (e_vals e) = length (hc_vars c).
Definition run_exports (c : h5cfg) (f : h5data) (rs : list request) : h5data :=
  fold_left (fun f r => fst (diag_export c f (Tuple (map Some (e_vals (fst r)))) (Some (e_time (fst r))) (snd r))) rs f.

(** A callback evaluated at given times with given values and indices; stops at the
    first exception. *)
Fixpoint run_callback (cb : callback) (f : h5data) (rs : list request) : callback * h5data * option herr :=
  match rs with
  | [] => (cb, f, None)
  | (e, index) :: r =>
    match cb_evaluate cb f (e_time e) (Tuple (map Some (e_vals e))) index with
    | (cb', f', None) => run_callback cb' f' r
    | res => res
    end
  end.
Definition window (start_time end_time : option Qc) (t : Qc) : Prop :=
  (forall s, start_time = Some s -> (s <= t)%Qc) /\ (forall e, end_time = Some e -> (t <= e)%Qc).
Definition window_b (start_time end_time : option Qc) (t : Qc) : bool :=
  match start_time with Some s => Qcleb s t | None => true end &&
  match end_time with Some e => Qcleb t e | None => true end.

(** trapezium rule for equally spaced samples *)
Fixpoint trapezium (dt : Qc) (vs : list Qc) : Qc :=
  match vs with
  | a :: ((b :: _) as r) => (dt * ((a + b) / qz 2) + trapezium dt r)%Qc
  | _ => qz 0
  end.

Definition nonzero_bound (o : option Qc) : Prop := o <> Some (qz 0).

Definition appends (es : list entry) : list request := map (fun e => (e, None)) es.

Fixpoint indexed (k0 : nat) (es : list entry) : list request :=
  match es with [] => [] | e :: r => (e, Some (Z.of_nat k0)) :: indexed (S k0) r end.

(** A fresh callback that stores its values and creates its file *)
Definition fresh (cb : callback) : Prop := cb_hdf5 cb = true /\ cb_init cb = false /\ cb_create cb = true.
(** A callback whose file is set to be continued after a restart *)
Definition resumed (cb : callback) : Prop := cb_hdf5 cb = true /\ cb_init cb = false /\ cb_create cb = false.
