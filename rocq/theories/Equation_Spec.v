(** Vocabulary for equations (C38): what a history of calls means, without the
    dictionaries of the implementation. *)
From Coq Require Import String Reals List Bool.
From Verif Require Import Exporter_Model Equation_Model.
Import ListNotations.
Open Scope string_scope.

Section Spec.
Variable T : Type.
Definition key_of (op : eqop T) : option string :=
  match op with AddTerm cls _ _ suffix => Some (term_key cls suffix) | LabelTerms _ _ => None end.

(** the term registered under a key is the one added last *)
Definition term_after (ops : list (eqop T)) (k : string) : option T :=
  fold_left (fun cur op => match op with
                           | AddTerm cls t _ suffix => if String.eqb (term_key cls suffix) k then Some t else cur
                           | LabelTerms _ _ => cur end) ops None.
(** the label of a key is the one given last *)
Definition label_after (ops : list (eqop T)) (k : string) : option string :=
  fold_left (fun cur op => match op with
                           | AddTerm cls _ l suffix => if String.eqb (term_key cls suffix) k then Some l else cur
                           | LabelTerms keys l => if existsb (String.eqb k) keys then Some l else cur end) ops None.
(** keys in the order of their first appearance *)
Definition keys_after (ops : list (eqop T)) : list string :=
  fold_left (fun ks op => match key_of op with
                          | Some k => if existsb (String.eqb k) ks then ks else (ks ++ [k])%list
                          | None => ks end) ops [].

(** sum of a list of numbers *)
Definition total (l : list R) : R := fold_right Rplus 0%R l.

(** the sum of the residuals of the registered terms whose label is in [sel] *)
Definition sum_of_terms (res : T -> R) (ops : list (eqop T)) (sel : list string) : R :=
  total (map (fun k => match label_after ops k, term_after ops k with
                       | Some l, Some t => if existsb (String.eqb l) sel then res t else 0%R
                       | _, _ => 0%R end) (keys_after ops)).
End Spec.
