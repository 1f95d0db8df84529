(** Model of thetis/optimisation.py.  Function values are integers; a callback of the user is
    represented by its number and by when it raises. *)
From Coq Require Import List String Bool Arith ZArith.
Import ListNotations.
Open Scope string_scope.
Open Scope list_scope.

(** a Function: name, function space, value *)
Record fn := mkFn { fname : string; fspace : nat; fval : Z }.
(** one argument of a ReducedFunctional callback: a number, one Function, a list of them *)
Inductive arg := ANum (x : Z) | AOne (f : fn) | AMany (fs : list fn).
(** the stages of the optimisation and the arguments pyadjoint passes, module docstring *)
Inductive event := EvalPre (c : arg) | EvalPost (j : Z) (c : arg)
  | DerivPre (c : arg) | DerivPost (j : Z) (d c : arg)
  | HessPre (c : arg) | HessPost (j : Z) (h c : arg).
Definition args_of (e : event) : list arg :=
  match e with
  | EvalPre c | DerivPre c | HessPre c => [c]
  | EvalPost j c => [ANum j; c]
  | DerivPost j d c | HessPost j d c => [ANum j; d; c]
  end.

(** ** Callbacks *)
(** a callback of the user (a number), or an OptimisationCallbackList, 222-229, which may
    contain further lists *)
Inductive cb := Leaf (n : nat) | CbList (l : list cb).
(** the calls made so far: callback number and arguments *)
Definition calls := list (nat * list arg).
Section Call.
  (** does the user's callback raise, given the calls so far? *)
  Variable raises : nat -> list arg -> bool.
  (** OptimisationCallback.__call__ and callback: the trace so far and whether an exception
      stopped the iteration *)
  Fixpoint call (c : cb) (args : list arg) (tr : calls) : calls * bool :=
    match c with
    | Leaf n => (tr ++ [(n, args)], raises n args)
    | CbList l =>
      (fix go (l : list cb) (tr : calls) : calls * bool :=
         match l with
         | [] => (tr, false)
         | c' :: r => let '(tr', e) := call c' args tr in if e then (tr', true) else go r tr'
         end) l tr
    end.
End Call.
(** the value returned by __call__, 40-45: None is the IndexError for no arguments *)
Definition call_returns (args : list arg) : option arg :=
  match args with
  | _ :: d :: _ => Some d
  | [a] => Some a
  | [] => None
  end.

(** ** UserExportManager, 58-101 *)
Section Export.
  (** field_defs.field_metadata: file name of a known field *)
  Variable metadata : string -> option string.
  Variable prefix : string.
  Definition filename_of (name : string) : string :=
    (prefix ++ match metadata name with Some f => f | None => name end)%string.
  (** field_dict: the last function of a name wins *)
  Fixpoint field_dict (fs : list fn) (name : string) : option fn :=
    match fs with
    | [] => None
    | f :: r => match field_dict r name with
                | Some g => Some g
                | None => if String.eqb (fname f) name then Some f else None
                end
    end.
  (** the keys of the exporters dictionary of ExportManager: one per name *)
  Fixpoint keys (fs : list fn) (seen : list string) : list string :=
    match fs with
    | [] => []
    | f :: r => if existsb (String.eqb (fname f)) seen then keys r seen
                else fname f :: keys r (fname f :: seen)
    end.
  (** one export: the file name, the running number and the value of each key *)
  Definition export_once (fs : list fn) (i : nat) : list (string * nat * Z) :=
    flat_map (fun k => match field_dict fs k with
                       | Some f => [(filename_of k, i, fval f)] | None => [] end) (keys fs []).

  (** ** DeferredExportManager, 104-143: the fixed functions (None before the first export),
      the running number and what has been written *)
  Record deferred := mkDef { d_functions : option (list fn); d_next : nat; d_written : list (string * nat * Z) }.
  Definition deferred_new : deferred := mkDef None 0 [].
  (** copying the given values into the fixed functions; None is the AssertionError.  The
      lists are zipped *)
  Fixpoint assign (fixed given : list fn) : option (list fn) :=
    match fixed, given with
    | f :: r, g :: s =>
      if Nat.eqb (fspace f) (fspace g)
      then option_map (cons (mkFn (fname f) (fspace f) (fval g))) (assign r s)
      else None
    | _, _ => Some fixed
    end.
  Definition as_list (a : arg) : list fn := match a with AMany l => l | AOne f => [f] | ANum _ => [] end.
  Fixpoint zip_names (fs : list fn) (names : list string) : list fn :=
    match fs, names with
    | f :: r, n :: s => mkFn n (fspace f) 0 :: zip_names r s
    | _, _ => []
    end.
  Definition deferred_export (functions : list fn) (names : option (list string)) (d : deferred) : option deferred :=
    let fixed := match d_functions d with
                 | Some l => l
                 | None => match names with
                           | None => map (fun f => mkFn (fname f) (fspace f) 0) functions
                           | Some ns => zip_names functions ns
                           end
                 end in
    match assign fixed functions with
    | None => None
    | Some l => Some (mkDef (Some l) (S (d_next d)) (d_written d ++ export_once l (d_next d)))
    end.
  (** ControlsExportOptimisationCallback.callback, 186-187 *)
  Definition controls_export (args : list arg) (d : deferred) : option deferred :=
    deferred_export (as_list (last args (ANum 0))) None d.
  (** DerivativesExportOptimisationCallback.callback, 204-213; None also for the TypeError *)
  Definition derivatives_export (args : list arg) (d : deferred) : option deferred :=
    match args with
    | [_; dv; c] => deferred_export (as_list dv) (Some (map fname (as_list c))) d
    | _ => None
    end.
End Export.

(** ** Diagnostic callbacks: compute_values of FunctionalOptimisationCallback, 276-279,
    ConstantControlOptimisationCallback, 291-295, and the derivative one, 307-313.  One row
    per call; None is the exception *)
Definition functional_values (args : list arg) : option (list arg) :=
  match args with [] => None | a :: _ => Some [a] end.
Definition control_values (array_dim : nat) (args : list arg) : option (list Z) :=
  match last args (ANum 0) with
  | AMany fs => if Nat.eqb array_dim (List.length fs) then Some (map fval fs) else None
  | _ => None
  end.
Definition derivative_values (array_dim : nat) (args : list arg) : option (list Z) :=
  match args with
  | [_; AMany ds; _] => if Nat.eqb array_dim (List.length ds) then Some (map fval ds) else None
  | _ => None
  end.
