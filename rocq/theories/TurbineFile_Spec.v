(** What a turbine definition file says (C86). *)
From Coq Require Import String.
From Verif Require Import Num Exporter_Model Options_Model Options_Table Options_Spec TurbineFile_Model.
Open Scope string_scope.

(** the entry of the file under a path of keys *)
Fixpoint entry (file : jval) (path : list string) : option jval :=
  match path with
  | [] => Some file
  | k :: r => match file with
              | JDict d => match dict_get d k with Some v => entry v r | None => None end
              | _ => None
              end
  end.

(** whether the file holds tables, and whether its support structure is to be used *)
Definition tabulated (file : jval) : bool :=
  match entry file ["turbine_thrust_def"] with
  | Some (JVal (VStr s)) => String.eqb s "table"
  | _ => false
  end.
Definition supported (include_support : bool) (file : jval) : bool :=
  if include_support then match entry file ["support_structure"] with Some _ => true | None => false end
  else false.

(** the options of a turbine that come from the file, and where they stand in it *)
Definition curve_entries (table : bool) : list (string * list string) :=
  if table then [("thrust_speeds", ["curves"; "speeds"]);
                 ("thrust_coefficients", ["curves"; "thrust"]);
                 ("power_coefficients", ["curves"; "power"])]
  else [("thrust_coefficient", ["thrust_coefficient"]);
        ("power_coefficient", ["power_coefficient"])].
Definition support_entries (support : bool) : list (string * list string) :=
  if support then [("structure_type", ["support_structure"; "type"]);
                   ("rel_hub_height", ["support_structure"; "rel_hub_height"]);
                   ("C_support", ["support_structure"; "C_support"]);
                   ("A_support", ["support_structure"; "A_support"])]
  else [].
Definition entries (table support : bool) : list (string * list string) :=
  (curve_entries table ++ support_entries support ++ [("diameter", ["diameter"])])%list.

(** the class of options of a turbine *)
Definition options_class (table : bool) : optclass :=
  if table then TabulatedTidalTurbineOptions_class else ConstantTidalTurbineOptions_class.

(** the file has an entry under the path, and its value is allowed for the option *)
Definition good_entry (file : jval) (table : bool) (o : string * list string) : Prop :=
  exists v d, entry file (snd o) = Some v /\
    dict_get (oc_decls (options_class table)) (fst o) = Some d /\ allowed hierarchy d (erase v).

(** a complete file *)
Definition good_file (include_support discrete : bool) (file : jval) : Prop :=
  (exists d, file = JDict d) /\
  (entry file ["turbine_thrust_def"] = None \/
   entry file ["turbine_thrust_def"] = Some (JVal (VStr "constant")) \/
   entry file ["turbine_thrust_def"] = Some (JVal (VStr "table"))) /\
  Forall (good_entry file (tabulated file)) (entries (tabulated file) (supported include_support file)) /\
  (discrete = true -> entry file ["upwind_correction"] = None \/
                      exists b, entry file ["upwind_correction"] = Some (JVal (VBool b))) /\
  entry file ["name"] <> None.

(** the paths of everything that is read from a file *)
Definition all_paths (table support : bool) : list (list string) :=
  (["turbine_thrust_def"] :: ["support_structure"] :: ["upwind_correction"] :: ["name"]
   :: map snd (entries table support))%list.
