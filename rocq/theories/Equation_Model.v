(** Model of thetis/equation.py: equations as labelled collections of terms.

    A term is an abstract object; what its residual evaluates to in the current
    state (test function, solution, fields, boundary conditions) is a number given
    by the function [res], so that the form assembled by [residual] becomes a real
    number.  Mesh dependent attributes of Equation and Term (20-33, 85-98) carry
    no logic and are left out. *)
From Coq Require Import String Ascii Reals List Bool.
From Verif Require Import Exporter_Model.
Import ListNotations.
Open Scope string_scope.

(** SUPPORTED_LABELS, equation.py:67 *)
Definition supported_labels : list string := ["source"; "explicit"; "implicit"; "nonlinear"].

Section Terms.
Variable T : Type.

(** [terms] (an OrderedDict) and [labels], equation.py:90-91 *)
Record equation := mkEq { e_terms : list (string * T); e_labels : list (string * string) }.
Definition empty_eq : equation := mkEq [] [].

Inductive eqerr := EqAssertion | EqKeyError.

Definition has_key {A} (d : list (string * A)) (k : string) : bool :=
  match dict_get d k with Some _ => true | None => false end.

(** label_term with a string, equation.py:129-132 *)
Definition label_term (e : equation) (key label : string) : equation * option eqerr :=
  if has_key (e_terms e) key then
    if existsb (String.eqb label) supported_labels then (mkEq (e_terms e) (dict_set (e_labels e) key label), None)
    else (e, Some EqAssertion)
  else (e, Some EqAssertion).
(** label_term with an iterable, equation.py:133-135 *)
Fixpoint label_terms (e : equation) (keys : list string) (label : string) : equation * option eqerr :=
  match keys with
  | [] => (e, None)
  | k :: r => match label_term e k label with
              | (e1, None) => label_terms e1 r label
              | (e1, Some x) => (e1, Some x)
              end
  end.

(** the key of a term, equation.py:116-118; [cls]: name of its class *)
Definition term_key (cls : string) (suffix : option string) : string :=
  match suffix with None => cls | Some s => cls ++ "_" ++ s end.
(** add_term, equation.py:107-120 *)
Definition add_term (e : equation) (cls : string) (t : T) (label : string) (suffix : option string) : equation * option eqerr :=
  let key := term_key cls suffix in
  label_term (mkEq (dict_set (e_terms e) key t) (e_labels e)) key label.

(** select_terms, equation.py:137-153; [None] in the selection stands for 'all'.
    A term without a label is a KeyError. *)
Definition selected (sel : option (list string)) : list string :=
  match sel with None => supported_labels | Some ls => ls end.
Fixpoint select_from (labels : list (string * string)) (sel : list string) (terms : list (string * T)) : option (list T) :=
  match terms with
  | [] => Some []
  | (k, t) :: r =>
    match dict_get labels k with
    | None => None
    | Some l => match select_from labels sel r with
                | None => None
                | Some ts => Some (if existsb (String.eqb l) sel then t :: ts else ts)
                end
    end
  end.
Definition select_terms (e : equation) (sel : option (list string)) : option (list T) :=
  select_from (e_labels e) (selected sel) (e_terms e).

(** residual, equation.py:156-176 (and residual_uv_eta, shallowwater_eq.py:886-890) *)
Variable res : T -> R.
Definition residual (e : equation) (sel : option (list string)) : option R :=
  match select_terms e sel with
  | None => None
  | Some ts => Some (fold_left (fun f t => (f + res t)%R) ts 0%R)
  end.

(** what a program does to an equation *)
Inductive eqop :=
| AddTerm (cls : string) (t : T) (label : string) (suffix : option string)
| LabelTerms (keys : list string) (label : string).
Definition eqstep (e : equation) (op : eqop) : equation * option eqerr :=
  match op with
  | AddTerm cls t label suffix => add_term e cls t label suffix
  | LabelTerms keys label => label_terms e keys label
  end.
Fixpoint eqrun (e : equation) (ops : list eqop) : equation * option eqerr :=
  match ops with
  | [] => (e, None)
  | op :: r => match eqstep e op with
               | (e1, None) => eqrun e1 r
               | (e1, Some x) => (e1, Some x)
               end
  end.
End Terms.
Arguments empty_eq {T}.
Arguments e_terms {T}. Arguments e_labels {T}.
Arguments AddTerm {T}. Arguments LabelTerms {T}.

(** ** The equations of the code base: class names and labels *)

(** BaseShallowWaterEquation.add_momentum_terms, shallowwater_eq.py:867-880 *)
Definition swe_momentum_terms (turbines : bool) : list (string * string) :=
  ([("ExternalPressureGradientTerm", "implicit"); ("HorizontalAdvectionTerm", "implicit"); ("HorizontalViscosityTerm", "explicit");
    ("CoriolisTerm", "implicit"); ("WindStressTerm", "source"); ("AtmosphericPressureTerm", "source"); ("QuadraticDragTerm", "implicit");
    ("LinearDragTerm", "implicit"); ("BoundaryDragTerm", "implicit"); ("BottomDrag3DTerm", "source"); ("MomentumSourceTerm", "source")] ++
   (if turbines then [("TurbineDragTerm", "implicit")] else []))%list.
(** add_continuity_terms, 882-884 *)
Definition swe_continuity_terms : list (string * string) := [("HUDivTerm", "implicit"); ("ContinuitySourceTerm", "source")].
(** ShallowWaterEquations, 893-915 *)
Definition swe_terms (turbines : bool) : list (string * string) := (swe_momentum_terms turbines ++ swe_continuity_terms)%list.
(** ModeSplit2DEquations, 933-958 *)
Definition modesplit_terms : list (string * string) :=
  ([("ExternalPressureGradientTerm", "implicit"); ("CoriolisTerm", "explicit"); ("MomentumSourceTerm", "source"); ("AtmosphericPressureTerm", "source")]
   ++ swe_continuity_terms)%list.
(** MomentumEquation (3D), momentum_eq.py:601-609 *)
Definition momentum3d_terms : list (string * string) :=
  [("PressureGradientTerm", "source"); ("HorizontalAdvectionTerm", "explicit"); ("VerticalAdvectionTerm", "explicit");
   ("HorizontalViscosityTerm", "explicit"); ("VerticalViscosityTerm", "explicit"); ("BottomFrictionTerm", "explicit");
   ("LinearDragTerm", "explicit"); ("CoriolisTerm", "explicit"); ("SourceTerm", "source")].
(** TracerEquation (3D), tracer_eq.py:407-411 *)
Definition tracer3d_terms : list (string * string) :=
  [("HorizontalAdvectionTerm", "explicit"); ("VerticalAdvectionTerm", "explicit"); ("HorizontalDiffusionTerm", "explicit");
   ("VerticalDiffusionTerm", "explicit"); ("SourceTerm", "source")].
(** SedimentEquation2D, sediment_eq_2d.py:120-127 *)
Definition sediment_terms (conservative : bool) : list (string * string) :=
  [(if conservative then "ConservativeSedimentAdvectionTerm" else "SedimentAdvectionTerm", "explicit");
   ("SedimentDiffusionTerm", "explicit"); ("SedimentErosionTerm", "source"); ("SedimentDepositionTerm", "implicit")].
(** ExnerEquation, exner_eq.py:170-176 *)
Definition exner_terms (suspended bedload slide : bool) : list (string * string) :=
  ((if suspended then [("ExnerSourceTerm", "source")] else []) ++ (if bedload then [("ExnerBedloadTerm", "implicit")] else []) ++
   (if slide then [("ExnerSedimentSlideTerm", "implicit")] else []))%list.
(** terms of one tracer of a 2D system, tracer_eq_2d.py:480-488 *)
Definition tracer2d_terms (conservative : bool) : list (string * string) :=
  if conservative
  then [("ConservativeHorizontalAdvectionTerm", "explicit"); ("ConservativeHorizontalDiffusionTerm", "explicit"); ("ConservativeSourceTerm", "source")]
  else [("HorizontalAdvectionTerm", "explicit"); ("HorizontalDiffusionTerm", "explicit"); ("SourceTerm", "source")].

(** programs that build these equations; a term is represented by its class name
    and, for 2D tracers, the tracer it belongs to *)
Definition build (terms : list (string * string)) : list (eqop (string * option string)) :=
  map (fun tl => AddTerm (fst tl) (fst tl, None) (snd tl) None) terms.
(** TracerEquation2D.__init__, tracer_eq_2d.py:467-478 *)
Definition build_system (conservative : string -> bool) (labels : list string) : list (eqop (string * option string)) :=
  concat (map (fun l => map (fun tl => AddTerm (fst tl) (fst tl, Some l) (snd tl) (Some l)) (tracer2d_terms (conservative l))) labels).
