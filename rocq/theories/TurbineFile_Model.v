(** Model of load_turbine, thetis/turbines.py:369-419, of the option objects it fills
    (thetis/options.py:460-531, through the tables of Options_Table) and of the farm that
    is built from them (turbines.py:17-34, 95-107, 127-137, 148-166).

    The YAML and JSON parsers are not part of the repository: they are functions from the
    text of the file to nested dictionaries, lists and scalars. *)
From Coq Require Import String.
From Verif Require Import Num Exporter_Model Options_Model Options_Table.
Open Scope string_scope.
Open Scope Z_scope.

(** what a parser gives: scalars (numbers, strings, booleans, null), lists and dictionaries *)
Inductive jval :=
| JVal (v : pyval)
| JList (l : list jval)
| JDict (d : list (string * jval)).
(** the value as the option types see it: they look at the type of a list, not into it;
    scalars are numbers, booleans, strings, null and dates *)
Definition erase (j : jval) : pyval :=
  match j with
  | JVal v => match v with
              | VInt _ | VBool _ | VFloat _ | VStr _ | VNone | VDatetime _ => v
              | _ => VOther
              end
  | JList _ => VList
  | JDict _ => VDict
  end.

Inductive ferr := FKeyError | FTypeError | FAttributeError | FTraitError | FValueError | FParseError.
Definition bind {A B} (x : A + ferr) (f : A -> B + ferr) : B + ferr :=
  match x with inl a => f a | inr e => inr e end.
Notation "'let*' x ':=' e 'in' b" := (bind e (fun x => b)) (at level 200, x binder, right associativity).

(** data[key] *)
Definition getitem (j : jval) (k : string) : jval + ferr :=
  match j with
  | JDict d => match dict_get d k with Some v => inl v | None => inr FKeyError end
  | _ => inr FTypeError
  end.
(** data.get(key, default) *)
Definition get (j : jval) (k : string) (default : jval) : jval + ferr :=
  match j with
  | JDict d => inl (match dict_get d k with Some v => v | None => default end)
  | _ => inr FAttributeError
  end.
(** key in data *)
Definition has_key (j : jval) (k : string) : bool :=
  match j with JDict d => match dict_get d k with Some _ => true | None => false end | _ => false end.

(** The farm options object: its class (discrete or not), the choice of turbine_type,
    what was assigned to the turbine_options object, and what was assigned to
    upwind_correction; [fo_name]: the name of the density function.
    options.py:507-531 *)
Record farm_options := mkFO {
  fo_discrete : bool;
  fo_type : string;
  fo_turbine : list (string * jval);
  fo_upwind : option jval;
  fo_name : option jval
}.
Definition new_options (discrete : bool) : farm_options := mkFO discrete "constant" [] None None.
Definition farm_class (discrete : bool) : optclass :=
  if discrete then DiscreteTidalTurbineFarmOptions_class else TidalTurbineFarmOptions_class.

(** the class attached to turbine_options by a choice of turbine_type, options.py:508-510 *)
Definition turbine_class (discrete : bool) (ty : string) : string :=
  match dict_get (oc_pairs (farm_class discrete)) "turbine_type" with
  | Some p => match dict_get (p_classes p) ty with Some c => c | None => "" end
  | None => ""
  end.

(** assignment to turbine_type: validated, and a new choice attaches a new object
    (configuration.py:333-368) *)
Definition set_type (o : farm_options) (v : jval) : farm_options + ferr :=
  match dict_get (oc_decls (farm_class (fo_discrete o))) "turbine_type" with
  | None => inr FTypeError
  | Some d =>
    if validate hierarchy d (erase v)
    then match erase v with
         | VStr s => inl (mkFO (fo_discrete o) s (if String.eqb s (fo_type o) then fo_turbine o else [])
                            (fo_upwind o) (fo_name o))
         | _ => inr FKeyError
         end
    else inr FTraitError
  end.
(** assignment to one option of turbine_options *)
Definition set_turbine (o : farm_options) (k : string) (v : jval) : farm_options + ferr :=
  match dict_get (decls_of (turbine_class (fo_discrete o) (fo_type o))) k with
  | None => inr FTypeError
  | Some d =>
    if validate hierarchy d (erase v)
    then inl (mkFO (fo_discrete o) (fo_type o) (dict_set (fo_turbine o) k v) (fo_upwind o) (fo_name o))
    else inr FTraitError
  end.
(** assignment to upwind_correction *)
Definition set_upwind (o : farm_options) (v : jval) : farm_options + ferr :=
  match dict_get (oc_decls (farm_class (fo_discrete o))) "upwind_correction" with
  | None => inr FTypeError
  | Some d =>
    if validate hierarchy d (erase v)
    then inl (mkFO (fo_discrete o) (fo_type o) (fo_turbine o) (Some v) (fo_name o))
    else inr FTraitError
  end.
(** assignment of the density function, turbines.py:417-418 (a Function is always
    accepted) *)
Definition set_density (o : farm_options) (name : jval) : farm_options :=
  mkFO (fo_discrete o) (fo_type o) (fo_turbine o) (fo_upwind o) (Some name).

(** load_turbine after parsing, turbines.py:394-419 *)
Definition load_data (include_support discrete : bool) (data : jval) : farm_options + ferr :=
  let opts := new_options discrete in
  let* ty := get data "turbine_thrust_def" (JVal (VStr "constant")) in
  let* opts := set_type opts ty in
  let* opts :=
    if String.eqb (fo_type opts) "table" then
      let* curves := getitem data "curves" in
      let* v := getitem curves "speeds" in
      let* opts := set_turbine opts "thrust_speeds" v in
      let* curves := getitem data "curves" in
      let* v := getitem curves "thrust" in
      let* opts := set_turbine opts "thrust_coefficients" v in
      let* curves := getitem data "curves" in
      let* v := getitem curves "power" in
      set_turbine opts "power_coefficients" v
    else
      let* v := getitem data "thrust_coefficient" in
      let* opts := set_turbine opts "thrust_coefficient" v in
      let* v := getitem data "power_coefficient" in
      set_turbine opts "power_coefficient" v in
  let* opts :=
    if (include_support && has_key data "support_structure")%bool then
      let* s := getitem data "support_structure" in
      let* v := getitem s "type" in
      let* opts := set_turbine opts "structure_type" v in
      let* s := getitem data "support_structure" in
      let* v := getitem s "rel_hub_height" in
      let* opts := set_turbine opts "rel_hub_height" v in
      let* s := getitem data "support_structure" in
      let* v := getitem s "C_support" in
      let* opts := set_turbine opts "C_support" v in
      let* s := getitem data "support_structure" in
      let* v := getitem s "A_support" in
      set_turbine opts "A_support" v
    else inl opts in
  let* v := getitem data "diameter" in
  let* opts := set_turbine opts "diameter" v in
  let* opts :=
    if discrete then
      let* v := get data "upwind_correction" (JVal (VBool true)) in
      set_upwind opts v
    else inl opts in
  let* name := getitem data "name" in
  inl (set_density opts name).

(** path.endswith((".yaml", ".yml")), turbines.py:392 *)
Fixpoint ends_with (suffix s : string) : bool :=
  (String.eqb s suffix || match s with EmptyString => false | String _ r => ends_with suffix r end)%bool.

(** load_turbine, turbines.py:369-419; [text] is the content of the file *)
Definition load_turbine (yaml json : string -> option jval) (path text : string)
  (include_support discrete : bool) : farm_options + ferr :=
  let parsed := if (ends_with ".yaml" path || ends_with ".yml" path)%bool then yaml text else json text in
  match parsed with
  | Some data => load_data include_support discrete data
  | None => inr FParseError
  end.

(** reading an option of turbine_options: what was assigned, or the default
    (options.py:460-504; the default tables are spelled out there) *)
Definition default_turbine (cls k : string) : jval :=
  if String.eqb k "thrust_speeds" then
    JList (map (fun q => JVal (VFloat (Fin q))) [qq 9 10; qq 1 1; qq 3 1; qq 5 1; qq 5001 1000])
  else if String.eqb k "thrust_coefficients" then
    JList (map (fun q => JVal (VFloat (Fin q))) [qq 1 100; qq 7 10; qq 7 10; qq 1 10; qq 1 10000])
  else match dict_get (decls_of cls) k with Some d => JVal (d_default d) | None => JVal VNone end.
Definition read (o : farm_options) (k : string) : jval :=
  match dict_get (fo_turbine o) k with
  | Some v => v
  | None => default_turbine (turbine_class (fo_discrete o) (fo_type o)) k
  end.

(** truth of a Python value, for [x or y] *)
Definition truthy (j : jval) : bool :=
  match j with
  | JVal (VInt z) => negb (Z.eqb z 0)
  | JVal (VBool b) => b
  | JVal (VFloat (Fin q)) => negb (Qceqb q 0)
  | JVal (VStr s) => negb (String.eqb s "")
  | JVal VNone => false
  | JVal _ => true
  | JList l => match l with [] => false | _ => true end
  | JDict d => match d with [] => false | _ => true end
  end.

(** a power coefficient: given, or computed from a thrust coefficient by
    0.5 * c_t * (1 + (1 - c_t) ** 0.5), turbines.py:100, 132 *)
Inductive coefficient := Given (v : jval) | Computed (c_t : jval).

(** the attributes of the turbine, TidalTurbine.__init__, turbines.py:18-34,
    ConstantThrustTurbine.__init__, 96-100, TabulatedThrustTurbine.__init__, 128-137 *)
Inductive curve :=
| ConstantThrust (c_t : jval) (c_p : coefficient)
| TabulatedThrust (speeds thrust : list jval) (power : list coefficient).
Record turbine := mkTurbine {
  tb_diameter : jval;
  tb_projected : jval;
  tb_C_support : jval;
  tb_A_support : jval;
  tb_hub : jval;
  tb_structure : jval;
  tb_upwind : jval;
  tb_curve : curve
}.

(** elements of a list, len() *)
Definition elements (j : jval) : list jval + ferr :=
  match j with JList l => inl l | _ => inr FTypeError end.

(** ConstantThrustTurbine / TabulatedThrustTurbine, the curve *)
Definition make_curve (o : farm_options) : curve + ferr :=
  if String.eqb (fo_type o) "constant" then
    let c_t := read o "thrust_coefficient" in
    let c_p := read o "power_coefficient" in
    inl (ConstantThrust c_t (if truthy c_p then Given c_p else Computed c_t))
  else
    let* c_t := elements (read o "thrust_coefficients") in
    let* c_p := (let p := read o "power_coefficients" in
                 if truthy p then let* l := elements p in inl (map Given l) else inl (map Computed c_t)) in
    let* speeds := elements (read o "thrust_speeds") in
    if negb (Nat.eqb (List.length c_t) (List.length speeds)) then inr FValueError
    else if negb (Nat.eqb (List.length c_p) (List.length speeds)) then inr FValueError
    else inl (TabulatedThrust speeds c_t c_p).

(** TidalTurbineFarm.__init__, turbines.py:149-163: the turbine of a farm;
    upwind_correction is False where the options have no such attribute *)
Definition make_turbine (o : farm_options) : turbine + ferr :=
  let upwind := if fo_discrete o then match fo_upwind o with Some v => v | None => JVal (VBool true) end
                else JVal (VBool false) in
  let* c := make_curve o in
  let projected := read o "projected_diameter" in
  inl (mkTurbine (read o "diameter") (if truthy projected then projected else read o "diameter")
         (read o "C_support") (read o "A_support") (read o "rel_hub_height") (read o "structure_type")
         upwind c).
