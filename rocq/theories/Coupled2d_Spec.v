(** What one coupled 2D step should do, independent of the code. *)
From Coq Require Import String List Bool Arith.
From Verif Require Import Coupled2d_Model.
Import ListNotations.
Open Scope string_scope.

(** Something besides shallow water is solved. *)
Definition coupled (o : copts) : bool := solve_tracer o || co_susp o || co_exner o.

(** Sensible options: integrator names from the menu, distinct tracer labels that
    are not names the solver uses itself. *)
Definition reserved : list string := ["sw"; "mom"; "swe2d"; "sediment"; "exner"; "fs"; "fs2d"].

Definition sensible_labels (o : copts) : Prop :=
  NoDup (co_systems o) /\ forall s, In s (co_systems o) -> ~ In s reserved.

Definition known_types (o : copts) : Prop :=
  In (co_swe_type o) stepper_types /\ In (co_tracer_type o) stepper_types /\
  In (co_sed_type o) stepper_types /\ In (co_exner_type o) stepper_types /\
  In (co_fs_type o) stepper_types.

(** The limiter, if asked for, can be applied: single tracers of degree one or
    more. *)
Definition limitable (o : copts) : Prop :=
  co_limiter o = true -> coupled o = true ->
  (0 < co_degree o)%nat /\ forall s, In s (co_systems o) -> has_comma s = false.

(** More than one Picard iteration needs Crank-Nicolson. *)
Definition picard_ok (o : copts) : Prop :=
  (1 < co_picard o)%nat -> solve_tracer o = true -> co_tracer_type o = "CrankNicolson".

Definition limit (o : copts) (s : string) : list ev := if co_limiter o then [ELimit s] else [].

(** One step: shallow water; the tracers in the order given, [p] times over;
    sediment; bed. *)
Definition expected (o : copts) (t : nat) : list ev :=
  (if co_tracer_only o then [] else [EAdvance CSwe t])
  ++ (if Nat.ltb 1 (co_picard o)
      then flat_map (fun i =>
             flat_map (fun s => EPicard (CTracer s) t (Nat.eqb i 0) (Nat.eqb (S i) (co_picard o))
                                :: limit o s) (co_systems o))
           (seq 0 (co_picard o))
      else flat_map (fun s => EAdvance (CTracer s) t :: limit o s) (co_systems o))
  ++ (if co_susp o || co_exner o then [ESedModel] else [])
  ++ (if co_susp o then EAdvance CSediment t :: limit o "sediment_2d" else [])
  ++ (if co_exner o then [EAdvance CExner t] else []).

(** The events that drive component [c]. *)
Definition comp_eqb (a b : comp) : bool :=
  match a, b with
  | CSwe, CSwe | CMom, CMom | CSediment, CSediment | CExner, CExner | CFs, CFs => true
  | CTracer s, CTracer s' => String.eqb s s'
  | _, _ => false
  end.
Definition drives (c : comp) (e : ev) : bool :=
  match e with
  | EAdvance c' _ | EPicard c' _ _ _ | EStage c' _ _ => comp_eqb c c'
  | _ => false
  end.

Definition events {A} (r : res A) : list ev := match r with Ok l _ | Err l _ => l end.
