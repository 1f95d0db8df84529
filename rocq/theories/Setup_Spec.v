(** What a set-up solver is: every component exists, belongs to the others and is
    complete for the configuration. *)
From Coq Require Import List String Bool Arith.
From Verif Require Import Setup_Model.
Import ListNotations.
Open Scope string_scope.
Open Scope list_scope.

(** every component was built from the current ones *)
Definition wired (s : st) : Prop :=
  exists i c f e t x,
    spaces s = Some (i, c) /\ fields s = Some f /\ eqs s = Some e /\ stepper s = Some t /\
    exporters s = Some x /\
    f_spaces f = i /\ e_fields e = f_id f /\ s_eqs t = e_id e /\ s_fields t = f_id f /\
    x_fields x = f_id f.

(** every component was built completely, from configuration [c] *)
Definition complete (c : cfg) (s : st) : Prop :=
  exists i f e t x,
    spaces s = Some (i, c) /\ fields s = Some f /\ eqs s = Some e /\ stepper s = Some t /\
    exporters s = Some x /\
    f_cfg f = c /\ f_done f = true /\ e_cfg e = c /\ e_done e = true /\ In Sw (e_parts e) /\
    s_cfg t = c /\ s_dt t = true /\
    x_cfg x = c /\ x_managers x = (if c_no_exports c then [] else ["vtk"; "hdf5"]).

(** a configuration no check of the set-up objects to.  The tracer labels, the turbine
    farms, sediment and the non-hydrostatic pressure concern the 2D solver only, the checks
    after the creation of the velocity field the 3D solver only. *)
Definition valid (three_d : bool) (c : cfg) : Prop :=
  c_spaces_ok c = true /\ c_early_ok c = true /\ c_dt_ok c = true /\
  (c_no_exports c = false -> c_vtk_ok c = true /\ c_exports_ok c = true) /\
  (three_d = true -> c_late_ok c = true) /\
  (three_d = false ->
     c_farms_ok c = true /\ (c_exner c = true -> c_bathy_cg c = true) /\ NoDup (c_tracers c) /\
     (* supported combinations: at most one of tracers, sediment, non-hydrostatic *)
     (c_nonhydro c = true -> c_tracers c = [] /\ c_susp c = false /\ c_exner c = false) /\
     (c_tracers c <> [] -> c_susp c = false /\ c_exner c = false)).

(** whether a component exists *)
Definition exists_ (k : kind) (s : st) : bool :=
  match k with
  | KSpaces => match spaces s with Some _ => true | None => false end
  | KFields => match fields s with Some _ => true | None => false end
  | KEquations => match eqs s with Some _ => true | None => false end
  | KStepper => match stepper s with Some _ => true | None => false end
  | KExporters => match exporters s with Some _ => true | None => false end
  end.

(** a history in which nothing is reconfigured and no creation method is called for a
    component that exists already *)
Fixpoint orderly (three_d : bool) (s : st) (ops : list op) : Prop :=
  match ops with
  | [] => True
  | o :: r => match o with
              | Configure _ => False
              | Create k => exists_ k s = false
              | _ => True
              end /\ orderly three_d (final (step three_d s o)) r
  end.
(** no call of the history raises *)
Fixpoint smooth (three_d : bool) (s : st) (ops : list op) : Prop :=
  match ops with
  | [] => True
  | o :: r => exists s', step three_d s o = Ok s' /\ smooth three_d s' r
  end.
Definition kind_dec (a b : kind) : {a = b} + {a <> b}.
Proof. decide equality. Defined.
(** how often a component was built *)
Definition built (k : kind) (s : st) : nat := count_occ kind_dec (journal s) k.
