(** Model of the coupled 2D time stepping: which component integrators exist
    (solver2d.py), and in which order one coupled step drives them
    (coupled_timeintegrator_2d.py).

    A step is modelled by the list of operations it performs on the model state,
    in order; an exception keeps the operations performed before it. What each
    single integrator does is modelled in TimeInt_Model/RK_Model. *)
From Coq Require Import String Ascii List Bool Arith.
From Verif Require Import Exporter_Model.
Import ListNotations.
Open Scope string_scope.

(** ** Options that matter (options.py) *)
Record copts := mk_copts
  { co_tracer_only : bool;
    co_systems : list string;          (* keys of tracer_fields, in order *)
    co_limiter : bool;                 (* use_limiter_for_tracers *)
    co_degree : nat;                   (* polynomial_degree *)
    co_susp : bool;                    (* solve_suspended_sediment *)
    co_exner : bool;                   (* solve_exner *)
    co_picard : nat;                   (* tracer_picard_iterations *)
    co_swe_type : string;
    co_tracer_type : string;
    co_sed_type : string;
    co_exner_type : string;
    co_nh : bool;                      (* solve_nonhydrostatic_pressure *)
    co_nh_fs : bool;                   (* update_free_surface *)
    co_fs_type : string }.

(** Which equation an integrator solves. *)
Inductive comp := CSwe | CMom | CTracer (s : string) | CSediment | CExner | CFs.

Record stepper := mk_st { st_eq : comp; st_type : string }.

Inductive exn :=
  | KeyError (k : string) | AttributeError (k : string) | TypeError | NotImplemented | Assertion.

(** Operations on the model state. *)
Inductive ev :=
  | EInit (c : comp)
  | EAdvance (c : comp) (t : nat)
  | EPicard (c : comp) (t : nat) (lag upd : bool)
  | ELimit (s : string)                (* limiter applied to a field *)
  | ESedModel                          (* sediment_model.update() *)
  | EStage (c : comp) (i : nat) (t : nat)
  | EPoisson (solve_w : bool)
  | ESaveElev                          (* elev_old := elev_2d *)
  | ERestoreElev                       (* elev_2d := elev_old *)
  | ESyncImex.                         (* solution_old of both IMEX parts *)

Inductive res (A : Type) := Ok (l : list ev) (a : A) | Err (l : list ev) (e : exn).
Arguments Ok {A}. Arguments Err {A}.

Definition ret {A} (a : A) : res A := Ok [] a.
Definition raise {A} (e : exn) : res A := Err [] e.
Definition emit (e : ev) : res unit := Ok [e] tt.
Definition bind {A B} (m : res A) (f : A -> res B) : res B :=
  match m with
  | Ok l a => match f a with Ok l' b => Ok (l ++ l') b | Err l' e => Err (l ++ l') e end
  | Err l e => Err l e
  end.
Notation "m ;; k" := (bind m (fun _ => k)) (at level 61, right associativity).

Definition skip : res unit := ret tt.

(** Python's for loop over a list. *)
Fixpoint each {A} (l : list A) (f : A -> res unit) : res unit :=
  match l with
  | [] => skip
  | x :: l' => f x ;; each l' f
  end.

(** ** Equations (solver2d.py:440-532): a dictionary that also holds the tracer
    systems under their own labels. *)
Definition solve_tracer (o : copts) : bool :=
  match co_systems o with [] => false | _ => true end.

Definition create_equations (o : copts) : list (string * comp) :=
  let d := dict_set [] "sw" CSwe in
  let d := fold_left (fun d s => dict_set d s (CTracer s)) (co_systems o) d in
  let d := if co_susp o then dict_set d "sediment" CSediment else d in
  let d := if co_exner o then dict_set d "exner" CExner else d in
  if co_nh o then dict_set d "fs" CFs else d.

(** solver2d.py:534-539: whether self.tracer_limiter is a limiter object rather
    than None. *)
Definition has_limiter (o : copts) : bool :=
  (solve_tracer o || co_susp o) && co_limiter o && Nat.ltb 0 (co_degree o).

(** The keys of [steppers], solver2d.py:662-672. *)
Definition stepper_types : list string :=
  ["SSPRK33"; "ForwardEuler"; "SteadyState"; "BackwardEuler"; "DIRK22"; "DIRK33";
   "CrankNicolson"; "PressureProjectionPicard"; "SSPIMEX"].

Definition lookup_type (ty : string) : res string :=
  if existsb (String.eqb ty) stepper_types then ret ty else raise (KeyError ty).

Definition get_eq (d : list (string * comp)) (k : string) : res comp :=
  match dict_get d k with Some c => ret c | None => raise (KeyError k) end.

(** ** The integrators of one coupled integrator object.
    [is_set k] says whether the attribute swe_integrator/... is an integrator
    class; otherwise it is the base class' own method (swe, tracer, exner; calling
    it with arguments is a TypeError) or missing (sediment: AttributeError),
    coupled_timeintegrator_2d.py:13-23. *)
Record integrators := mk_int
  { in_swe : option string; in_tracer : option string; in_sed : option string;
    in_exner : option string }.

Definition call (o : option string) : res string :=
  match o with Some ty => ret ty | None => raise TypeError end.
Definition call_sed (o : option string) : res string :=
  match o with Some ty => ret ty | None => raise (AttributeError "sediment_integrator") end.

(** __init__ prints the integrators' names first, coupled_timeintegrator_2d.py:
    35-42: a bound method has a __name__, the missing attribute raises. *)
Definition print_names (o : copts) (i : integrators) : res unit :=
  (if co_susp o then call_sed (in_sed i) ;; skip else skip).

(** The loop over the tracer systems, coupled_timeintegrator_2d.py:54-55. *)
Fixpoint tracer_steppers (i : integrators) (eqs : list (string * comp)) (l : list string)
  (d : list (string * stepper)) : res (list (string * stepper)) :=
  match l with
  | [] => ret d
  | s :: l' =>
      bind (call (in_tracer i)) (fun ty =>
      bind (get_eq eqs s) (fun c => tracer_steppers i eqs l' (dict_set d s (mk_st c ty))))
  end.

(** _create_integrators, coupled_timeintegrator_2d.py:48-59, with
    get_swe_timestepper (solver2d.py:541-573), which adds the momentum equation
    for PressureProjectionPicard, and the other get_*_timestepper functions. *)
Definition create_integrators (o : copts) (i : integrators) (eqs : list (string * comp))
  : res (list (string * stepper)) :=
  bind (if co_tracer_only o then ret (eqs, [])
        else bind (call (in_swe i)) (fun ty =>
             bind (get_eq eqs "sw") (fun c =>
             ret (if String.eqb (co_swe_type o) "PressureProjectionPicard"
                  then dict_set eqs "mom" CMom else eqs,
                  dict_set [] "swe2d" (mk_st c ty)))))
  (fun ed =>
  bind (tracer_steppers i (fst ed) (co_systems o) (snd ed)) (fun d =>
  bind (if co_susp o
        then bind (call_sed (in_sed i)) (fun ty =>
             bind (get_eq (fst ed) "sediment") (fun c => ret (dict_set d "sediment" (mk_st c ty))))
        else ret d) (fun d =>
  if co_exner o
  then bind (call (in_exner i)) (fun ty =>
       bind (get_eq (fst ed) "exner") (fun c => ret (dict_set d "exner" (mk_st c ty))))
  else ret d))).

(** The coupled integrator object. *)
Inductive timestepper :=
  | TSwe (s : stepper)                               (* a plain integrator *)
  | TCoupled (d : list (string * stepper))
  | TNonHydro (d : list (string * stepper)) (serial multi_fs : bool).

(** The number of stages of an integrator class, None if it has no n_stages. *)
Definition n_stages (ty : string) : option nat :=
  if String.eqb ty "SSPRK33" then Some 3
  else if String.eqb ty "BackwardEuler" then Some 1
  else if String.eqb ty "DIRK22" then Some 2
  else if String.eqb ty "DIRK33" then Some 3
  else if String.eqb ty "SSPIMEX" then Some 3
  else None.

Definition has_stages (ty : string) : bool := match n_stages ty with Some _ => true | None => false end.

(** NonHydrostaticTimeIntegrator2D.__init__, coupled_timeintegrator_2d.py:171-188. *)
Definition nh_init (o : copts) (swe_ty fs_ty : string) (eqs : list (string * comp)) : res timestepper :=
  let i := mk_int (Some swe_ty) None None None in
  print_names o i ;;
  bind (create_integrators o i eqs) (fun d =>
  bind (if co_nh_fs o
        then bind (get_eq eqs "fs") (fun c => ret (dict_set d "fs2d" (mk_st c fs_ty)))
        else ret d) (fun d =>
  match dict_get d "swe2d" with
  | None => raise (AttributeError "swe2d")
  | Some sw =>
      let serial := negb (has_stages (st_type sw)) || String.eqb (co_swe_type o) "SSPIMEX" in
      match dict_get d "fs2d" with
      | None => raise (AttributeError "fs2d")
      | Some fs =>
          let multi := has_stages (st_type fs) && negb (String.eqb (co_fs_type o) "BackwardEuler") in
          if multi && negb (String.eqb (co_swe_type o) (co_fs_type o)) then raise Assertion
          else ret (TNonHydro d serial multi)
      end
  end)).

(** GeneralCoupledTimeIntegrator2D.__init__, coupled_timeintegrator_2d.py:144-158;
    [ints] is the dictionary given by the solver. *)
Definition general_init (o : copts) (ints : list (string * string)) (eqs : list (string * comp))
  : res timestepper :=
  let get k := match dict_get ints k with Some ty => ret (Some ty) | None => raise (KeyError k) end in
  bind (if co_tracer_only o then ret None else get "shallow_water") (fun a =>
  bind (if solve_tracer o then get "tracer" else ret None) (fun b =>
  bind (if co_susp o then get "sediment" else ret None) (fun c =>
  bind (if co_exner o then get "exner" else ret None) (fun e =>
  let i := mk_int a b c e in
  print_names o i ;;
  bind (create_integrators o i eqs) (fun d => ret (TCoupled d)))))).

(** create_timestepper, solver2d.py:650-700. *)
Definition create_timestepper (o : copts) : res timestepper :=
  let eqs := create_equations o in
  if co_nh o then
    bind (lookup_type (co_swe_type o)) (fun sw =>
    bind (lookup_type (co_fs_type o)) (fun fs => nh_init o sw fs eqs))
  else if solve_tracer o then
    bind (lookup_type (co_swe_type o)) (fun sw =>
    bind (lookup_type (co_tracer_type o)) (fun tr =>
    general_init o [("shallow_water", sw); ("tracer", tr)] eqs))
  else if co_susp o || co_exner o then
    bind (lookup_type (co_swe_type o)) (fun sw =>
    bind (lookup_type (co_sed_type o)) (fun sd =>
    bind (lookup_type (co_exner_type o)) (fun ex =>
    general_init o [("shallow_water", sw); ("sediment", sd); ("exner", ex)] eqs)))
  else
    bind (lookup_type (co_swe_type o)) (fun sw =>
    bind (get_eq eqs "sw") (fun c => ret (TSwe (mk_st c sw)))).

(** ** Stepping *)
Definition comp_of (d : list (string * stepper)) (k : string) : res stepper :=
  match dict_get d k with Some s => ret s | None => raise (KeyError k) end.

Definition advance_one (d : list (string * stepper)) (k : string) (t : nat) : res unit :=
  bind (comp_of d k) (fun s => emit (EAdvance (st_eq s) t)).

(** TimeIntegrator.advance_picard raises except for Crank-Nicolson,
    timeintegrator.py:75-86 and :243-252. *)
Definition picard_one (d : list (string * stepper)) (k : string) (t : nat) (lag upd : bool) : res unit :=
  bind (comp_of d k) (fun s =>
  if String.eqb (st_type s) "CrankNicolson" then emit (EPicard (st_eq s) t lag upd)
  else raise NotImplemented).

Definition has_comma (s : string) : bool :=
  existsb (fun c => Ascii.eqb c ","%char) (list_ascii_of_string s).

(** coupled_timeintegrator_2d.py:101-104 and :124-127. *)
Definition limit_tracer (o : copts) (s : string) : res unit :=
  if co_limiter o then
    if has_comma s then raise NotImplemented
    else if has_limiter o then emit (ELimit s) else raise (AttributeError "apply")
  else skip.

(** The sediment and bed part, coupled_timeintegrator_2d.py:105-112 and :128-135. *)
Definition advance_sediment (o : copts) (d : list (string * stepper)) (t : nat) : res unit :=
  (if co_susp o || co_exner o then emit ESedModel else skip) ;;
  (if co_susp o then
     advance_one d "sediment" t ;;
     (if co_limiter o then
        if has_limiter o then emit (ELimit "sediment_2d") else raise (AttributeError "apply")
      else skip)
   else skip) ;;
  (if co_exner o then advance_one d "exner" t else skip).

Definition advance_swe (o : copts) (d : list (string * stepper)) (t : nat) : res unit :=
  if co_tracer_only o then skip else advance_one d "swe2d" t.

(** advance_picard, coupled_timeintegrator_2d.py:115-135. *)
Definition advance_picard (o : copts) (d : list (string * stepper)) (t : nat) : res unit :=
  advance_swe o d t ;;
  each (seq 0 (co_picard o)) (fun i =>
    each (co_systems o) (fun s =>
      picard_one d s t (Nat.eqb i 0) (Nat.eqb i (co_picard o - 1)) ;; limit_tracer o s)) ;;
  advance_sediment o d t.

(** advance, coupled_timeintegrator_2d.py:93-113. *)
Definition advance (o : copts) (d : list (string * stepper)) (t : nat) : res unit :=
  if Nat.ltb 1 (co_picard o) then advance_picard o d t
  else
    advance_swe o d t ;;
    each (co_systems o) (fun s => advance_one d s t ;; limit_tracer o s) ;;
    advance_sediment o d t.

(** initialize, coupled_timeintegrator_2d.py:70-91. *)
Definition init_one (d : list (string * stepper)) (k : string) : res unit :=
  bind (comp_of d k) (fun s => emit (EInit (st_eq s))).

Definition initialize (o : copts) (d : list (string * stepper)) : res unit :=
  (if co_tracer_only o then skip else init_one d "swe2d") ;;
  each (co_systems o) (init_one d) ;;
  (if co_susp o then init_one d "sediment" else skip) ;;
  (if co_exner o then init_one d "exner" else skip).

(** NonHydrostaticTimeIntegrator2D.advance, coupled_timeintegrator_2d.py:204-236. *)
Definition nh_advance (o : copts) (d : list (string * stepper)) (serial multi : bool) (t : nat) : res unit :=
  (if co_nh_fs o then emit ESaveElev else skip) ;;
  if serial then
    advance_one d "swe2d" t ;;
    emit (EPoisson true) ;;
    (if co_nh_fs o then emit ERestoreElev ;; advance_one d "fs2d" t else skip) ;;
    (if String.eqb (co_swe_type o) "SSPIMEX" then emit ESyncImex else skip)
  else
    bind (comp_of d "swe2d") (fun sw =>
    match n_stages (st_type sw) with
    | None => raise (AttributeError "n_stages")
    | Some n =>
        each (seq 0 n) (fun i =>
          let last := Nat.eqb i (n - 1) in
          emit (EStage (st_eq sw) i t) ;;
          emit (EPoisson last) ;;
          (if co_nh_fs o then
             if multi then
               emit ERestoreElev ;;
               bind (comp_of d "fs2d") (fun fs => emit (EStage (st_eq fs) i t)) ;;
               emit ESaveElev
             else if last then emit ERestoreElev ;; advance_one d "fs2d" t
             else skip
           else skip))
    end).

(** One step of whatever integrator the solver created. *)
Definition step (o : copts) (ts : timestepper) (t : nat) : res unit :=
  match ts with
  | TSwe s => emit (EAdvance (st_eq s) t)
  | TCoupled d => advance o d t
  | TNonHydro d serial multi => nh_advance o d serial multi t
  end.
