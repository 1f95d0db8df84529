(** Model of thetis/configuration.py (option types, frozen option objects,
    paired options), of the option-changing methods of thetis/options.py, and
    of FrozenClass/unfrozen in thetis/utility.py.

    The traitlets library is not part of the repository; what is used of it is
    written down here: [__set__] validates, stores, and notifies observers only
    if the new value differs from the old one (the default if never assigned);
    [Int.validate] accepts instances of int (bool included), [Float.validate]
    instances of float or int, [Bool], [Unicode], [Dict], [List] and [Instance]
    check the type, [Enum] membership; [allow_none] admits None.

    Simplifications: floats are exact rationals, infinities or nan; Firedrake
    and UFL objects are known only by their kind; option objects stored inside
    option objects carry their class and the settings the user made. *)
From Coq Require Import String Ascii.
From Verif Require Import Num Exporter_Model.
Open Scope string_scope.
Open Scope Z_scope.

(** ** Python values *)
Inductive pyfloat := Fin (q : Qc) | PInf | NInf | NaN.
Inductive uflkind := UConstant | UFunction | UExpr.
Inductive pyval :=
| VInt (z : Z) | VBool (b : bool) | VFloat (f : pyfloat) | VStr (s : string) | VNone
| VUfl (k : uflkind) (scalar : bool)
| VDatetime (aware : bool)
| VDict | VList | VType
| VObj (cls : string) (settings : list (string * pyval))
| VOther.

(** comparison of a number with a rational bound; nan compares false *)
Definition as_float (v : pyval) : option pyfloat :=
  match v with
  | VInt z => Some (Fin (qz z))
  | VBool b => Some (Fin (qz (if b then 1 else 0)))
  | VFloat f => Some f
  | _ => None
  end.
Definition py_gt (f : pyfloat) (q : Qc) : bool :=
  match f with Fin x => Qcltb q x | PInf => true | _ => false end.
Definition py_ge (f : pyfloat) (q : Qc) : bool :=
  match f with Fin x => Qcleb q x | PInf => true | _ => false end.
Definition py_le (f : pyfloat) (q : Qc) : bool :=
  match f with Fin x => Qcleb x q | NInf => true | _ => false end.

(** ** Option types (traitlets) *)
Inductive trait :=
| TInt | TPosInt | TNonNegInt | TBndInt (lo hi : Z)
| TFloat | TPosFloat | TNonNegFloat | TBndFloat (lo hi : Qc)
| TBool | TUnicode | TEnum (values : list string)
| TConstant | TCoefficient | TScalar | TVector | TDatetime
| TDict | TList | TType
| TInstance (base : string).

(** class, and all its ancestors *)
Variant classes := Classes (anc : list (string * list string)).
Definition isinstance_of (h : classes) (cls base : string) : bool :=
  match h with Classes anc =>
    match dict_get anc cls with Some l => existsb (String.eqb base) l | None => false end
  end.

Definition is_int (v : pyval) : bool := match v with VInt _ | VBool _ => true | _ => false end.
Definition is_floatlike (v : pyval) : bool := match v with VInt _ | VBool _ | VFloat _ => true | _ => false end.
Definition holds (v : pyval) (p : pyfloat -> bool) : bool :=
  match as_float v with Some f => p f | None => false end.

(** validate: whether the proposal is accepted.  configuration.py:75-144
    (numbers; the proposal itself is stored, so an int stays an int), 147-208
    (Firedrake objects), 211-218 (dates), 221-228 (dictionaries) *)
Definition accepts (h : classes) (t : trait) (v : pyval) : bool :=
  match t with
  | TInt => is_int v
  | TPosInt => is_int v && holds v (fun f => py_gt f (qz 0))
  | TNonNegInt => is_int v && holds v (fun f => py_ge f (qz 0))
  | TBndInt lo hi => is_int v && holds v (fun f => py_ge f (qz lo)) && holds v (fun f => py_le f (qz hi))
  | TFloat => is_floatlike v
  | TPosFloat => is_floatlike v && holds v (fun f => py_gt f (qz 0))
  | TNonNegFloat => is_floatlike v && holds v (fun f => py_ge f (qz 0))
  | TBndFloat lo hi => is_floatlike v && holds v (fun f => py_ge f lo) && holds v (fun f => py_le f hi)
  | TBool => match v with VBool _ => true | _ => false end
  | TUnicode => match v with VStr _ => true | _ => false end
  | TEnum values => match v with VStr s => existsb (String.eqb s) values | _ => false end
  | TConstant => match v with VUfl UConstant _ => true | _ => false end
  | TCoefficient => match v with VUfl UConstant _ | VUfl UFunction _ => true | _ => false end
  | TScalar => match v with VUfl _ s => s | _ => false end
  | TVector => match v with VUfl _ s => negb s | _ => false end
  | TDatetime => match v with VDatetime aware => aware | _ => false end
  | TDict => match v with VDict => true | _ => false end
  | TList => match v with VList => true | _ => false end
  | TType => match v with VType => true | _ => false end
  | TInstance base => match v with VObj cls _ => isinstance_of h cls base | _ => false end
  end%bool.

(** declaration of one option *)
Record decl := mkDecl { d_trait : trait; d_none : bool; d_default : pyval }.
(** TraitType._validate: None is accepted first if allowed *)
Definition validate (h : classes) (d : decl) (v : pyval) : bool :=
  match v with VNone => d_none d | _ => accepts h (d_trait d) v end.

(** a pairing made by attach_paired_options, configuration.py:333-368: the
    slaved option and the class that goes with each choice *)
Record pairing := mkPair { p_name : string; p_classes : list (string * string) }.

(** What a class of options declares *)
Record optclass := mkClass {
  oc_decls : list (string * decl);
  oc_pairs : list (string * pairing)
}.

(** ** Option objects *)

(** [o_vals]: _trait_values; [o_attrs]: other attributes; [o_frozen]: _isfrozen *)
Record obj := mkObj {
  o_frozen : bool;
  o_vals : list (string * pyval);
  o_attrs : list (string * pyval)
}.
Inductive operr := OTypeError | OTraitError | OKeyError | OAttributeError | OAssertion.

(** reading an option: the stored value, or the default *)
Definition dflt (c : optclass) (k : string) : pyval :=
  match dict_get (oc_decls c) k with Some d => d_default d | None => VNone end.
Definition getopt (c : optclass) (o : obj) (k : string) : pyval :=
  match dict_get (o_vals o) k with Some v => v | None => dflt c k end.

(** hasattr(self, key): declared in the class or set before *)
Definition hasattr (c : optclass) (o : obj) (k : string) : bool :=
  match dict_get (oc_decls c) k with
  | Some _ => true
  | None => match dict_get (o_attrs o) k with Some _ => true | None => false end
  end.

Definition with_val (o : obj) (k : string) (v : pyval) : obj :=
  mkObj (o_frozen o) (dict_set (o_vals o) k v) (o_attrs o).
Definition with_attr (o : obj) (k : string) (v : pyval) : obj :=
  mkObj (o_frozen o) (o_vals o) (dict_set (o_attrs o) k v).

(** equality of the values an enum option can hold *)
Definition same_choice (a b : pyval) : bool :=
  match a, b with VStr s, VStr t => String.eqb s t | VNone, VNone => true | _, _ => false end.

Section Objects.
Variable h : classes.
Variable c : optclass.

(** one assignment to a declared option, without observers *)
Definition store (o : obj) (k : string) (d : decl) (v : pyval) : obj * option operr :=
  if validate h d v then (with_val o k v, None) else (o, Some OTraitError).

(** the observer of an enum option, configuration.py:340-343: a new object of
    the paired class is assigned to the slaved option *)
Definition notify (o : obj) (k : string) (new : pyval) : obj * option operr :=
  match dict_get (oc_pairs c) k with
  | None => (o, None)
  | Some p =>
    match new with
    | VStr s =>
      match dict_get (p_classes p) s with
      | None => (o, Some OKeyError)
      | Some cls => match dict_get (oc_decls c) (p_name p) with
                    | Some d => store o (p_name p) d (VObj cls [])
                    | None => (o, Some OKeyError)
                    end
      end
    | _ => (o, Some OKeyError)
    end
  end.

(** __setattr__, configuration.py:304-308 and 325-329 *)
Definition setattr (o : obj) (k : string) (v : pyval) : obj * option operr :=
  if (o_frozen o && negb (hasattr c o k))%bool then (o, Some OTypeError)
  else match dict_get (oc_decls c) k with
       | Some d =>
         match store o k d v with
         | (o1, Some e) => (o1, Some e)
         | (o1, None) => if same_choice (getopt c o k) v then (o1, None) else notify o1 k v
         end
       | None => (with_attr o k v, None)
       end.

(** update, configuration.py:262-275: stops at the first exception *)
Fixpoint update (o : obj) (kvs : list (string * pyval)) : obj * option operr :=
  match kvs with
  | [] => (o, None)
  | (k, v) :: r => match setattr o k v with
                   | (o1, None) => update o1 r
                   | (o1, Some e) => (o1, Some e)
                   end
  end.

(** [options.<k>.<sub> = v] for an option [k] that holds an options object;
    [sub_decls cls]: what the class of that object declares *)
Variable sub_decls : string -> list (string * decl).
Definition set_sub (o : obj) (k sub : string) (v : pyval) : obj * option operr :=
  match getopt c o k with
  | VObj cls st =>
    match dict_get (sub_decls cls) sub with
    | None => (o, Some OTypeError)
    | Some d => if validate h d v then (with_val o k (VObj cls (dict_set st sub v)), None)
                else (o, Some OTraitError)
    end
  | _ => (o, Some OAttributeError)
  end.

(** what user code does to an options object *)
Inductive optop :=
| SetOpt (k : string) (v : pyval)
| UpdateOpts (kvs : list (string * pyval))
| SetSubOpt (k sub : string) (v : pyval).
Definition optstep (o : obj) (op : optop) : obj * option operr :=
  match op with
  | SetOpt k v => setattr o k v
  | UpdateOpts kvs => update o kvs
  | SetSubOpt k sub v => set_sub o k sub v
  end.
Definition optrun (o : obj) (ops : list optop) : obj := fold_left (fun o op => fst (optstep o op)) ops o.

(** a newly constructed options object: frozen at the end of __init__
    (configuration.py:300-302, 321-323) *)
Definition new_obj (attrs : list (string * pyval)) : obj := mkObj true [] attrs.
End Objects.

(** ** ModelOptions2d.set_timestepper_type, options.py:1020-1041

    [comps]: the components in the order they are set: the enum option and the
    option holding its settings; swe and tracer always, sediment, Exner and free
    surface if active.  The components that live in nested option objects are
    kept in one flat object here. *)
Section SetTimestepper.
Variable h : classes.
Variable c : optclass.
Variable sub_decls : string -> list (string * decl).
Fixpoint set_types (o : obj) (enums : list string) (ty : pyval) : obj * option operr :=
  match enums with
  | [] => (o, None)
  | e :: r => match setattr h c o e ty with
              | (o1, None) => set_types o1 r ty
              | (o1, Some x) => (o1, Some x)
              end
  end.
Fixpoint set_subs (o : obj) (slaves : list string) (k : string) (v : pyval) : obj * option operr :=
  match slaves with
  | [] => (o, None)
  | s :: r => match set_sub h c sub_decls o s k v with
              | (o1, None) => set_subs o1 r k v
              | (o1, Some x) => (o1, Some x)
              end
  end.
Fixpoint set_kwargs (o : obj) (slaves : list string) (kw : list (string * pyval)) : obj * option operr :=
  match kw with
  | [] => (o, None)
  | (k, v) :: r => match set_subs o slaves k v with
                   | (o1, None) => set_kwargs o1 slaves r
                   | (o1, Some x) => (o1, Some x)
                   end
  end.
Definition set_timestepper_type (o : obj) (comps : list (string * string)) (ty : pyval) (kw : list (string * pyval))
  : obj * option operr :=
  match set_types o (map fst comps) ty with
  | (o1, None) => set_kwargs o1 (map snd comps) kw
  | (o1, Some e) => (o1, Some e)
  end.
End SetTimestepper.

(** ** Tracer registration, options.py:946-1018 *)

Fixpoint has_char (ch : ascii) (s : string) : bool :=
  match s with EmptyString => false | String x r => (Ascii.eqb x ch || has_char ch r)%bool end.

(** keyword arguments of add_tracer_2d: a coefficient is [None] (absent),
    [Some true] (a scalar UFL expression) or [Some false] (something else) *)
Record tkwargs := mkKw { k_function : option bool; k_source : option bool; k_diffusivity : option bool; k_conservative : option bool; k_mixed : bool }.
Definition no_kwargs : tkwargs := mkKw None None None None false.

(** what the registry keeps for a label: the metadata dictionary (name,
    shortname, unit, filename); [None]: still the class default *)
Record tracer := mkTracer { t_meta : option (string * string * string * string) }.
(** [tracer] and [tracer_fields] *)
Record registry := mkReg { r_tracer : list (string * tracer); r_fields : list string }.
Definition reg0 : registry := mkReg [] [].
Definition add_field (r : registry) (k : string) : registry :=
  mkReg (r_tracer r) (if existsb (String.eqb k) (r_fields r) then r_fields r else (r_fields r ++ [k])%list).
Definition set_tracer (r : registry) (k : string) (t : tracer) : registry :=
  mkReg (dict_set (r_tracer r) k t) (r_fields r).
Definition coeff_ok (o : option bool) : bool := match o with Some false => false | _ => true end.

(** add_tracer_2d, options.py:951-988.  Label, name, filename, shortname and
    unit are strings. *)
Definition add_tracer_2d (r : registry) (label name filename : string) (shortname : option string) (unit_ : string) (kw : tkwargs)
  : registry * option operr :=
  if (match dict_get (r_tracer r) label with Some _ => true | None => false end
      || has_char " " label || has_char "," label || has_char " " filename)%bool
  then (r, Some OAssertion)
  else
    let short := match shortname with Some s => if String.eqb s "" then name else s | None => name end in
    let r := set_tracer r label (mkTracer None) in
    let r := set_tracer r label (mkTracer (Some (name, short, unit_, filename))) in
    if negb (coeff_ok (k_function kw) && coeff_ok (k_source kw) && coeff_ok (k_diffusivity kw) && coeff_ok (k_conservative kw))
    then (r, Some OTraitError)
    else if k_mixed kw then (r, None) else (add_field r label, None).

Fixpoint join_labels (l : list string) : string :=
  match l with [] => "" | [a] => a | a :: r => a ++ "," ++ join_labels r end.

(** one tracer of a system: label, name, filename, shortname, unit *)
Record tspec := mkSpec { s_label : string; s_name : string; s_file : string; s_short : option string; s_unit : string }.
Fixpoint add_all (r : registry) (specs : list tspec) (kw : string -> tkwargs) : registry * option operr :=
  match specs with
  | [] => (r, None)
  | s :: rest =>
    match add_tracer_2d r (s_label s) (s_name s) (s_file s) (s_short s) (s_unit s) (kw (s_label s)) with
    | (r1, None) => add_all r1 rest kw
    | (r1, Some e) => (r1, Some e)
    end
  end.
Definition mixed (k : tkwargs) : tkwargs := mkKw (k_function k) (k_source k) (k_diffusivity k) (k_conservative k) true.
(** add_tracer_system_2d, options.py:990-1018.  The argument lists have equal
    lengths (1007); [kw]: the keyword dictionary, empty or keyed by label. *)
Definition add_tracer_system_2d (r : registry) (specs : list tspec) (kw : list (string * tkwargs)) : registry * option operr :=
  let labels := map s_label specs in
  let kw1 := match kw with [] => map (fun l => (l, no_kwargs)) labels | _ => kw end in
  if negb (forallb (fun p => existsb (String.eqb (fst p)) labels) kw1) then (r, Some OAssertion)
  else if negb (forallb (fun l => match dict_get kw1 l with Some _ => true | None => false end) labels)
  then (r, Some OKeyError)
  else
    let r := add_field r (join_labels labels) in
    add_all r specs (fun l => match dict_get kw1 l with Some k => mixed k | None => mixed no_kwargs end).

Inductive regop :=
| AddTracer (s : tspec) (kw : tkwargs)
| AddSystem (specs : list tspec) (kw : list (string * tkwargs)).
Definition regstep (r : registry) (op : regop) : registry * option operr :=
  match op with
  | AddTracer s kw => add_tracer_2d r (s_label s) (s_name s) (s_file s) (s_short s) (s_unit s) kw
  | AddSystem specs kw => add_tracer_system_2d r specs kw
  end.
(** consumers of [tracer_fields] split its keys at the commas:
    solver2d.py (create_fields, create_equations, get_tracer_timestepper),
    coupled_timeintegrator_2d.py *)
Fixpoint split_comma_acc (s acc : string) : list string :=
  match s with
  | EmptyString => [acc]
  | String x r => if Ascii.eqb x "," then acc :: split_comma_acc r "" else split_comma_acc r (acc ++ String x "")
  end.
Definition split_comma (s : string) : list string := split_comma_acc s "".

(** ** FrozenClass and unfrozen, utility.py:26-57 *)
Record fobj := mkF { f_attrs : list string; f_frozen : bool; f_depth : Z }.
(** what code does with the object: set an attribute, raise, call one of its
    methods decorated with @unfrozen (whose body is again such code), or go on
    after catching exceptions *)
Inductive fprog :=
| FSkip
| FSet (k : string) (rest : fprog)
| FRaise
| FCall (body rest : fprog)
| FTry (body rest : fprog).
(** result: object, and whether an exception is on its way *)
Fixpoint frun (p : fprog) (o : fobj) : fobj * bool :=
  match p with
  | FSkip => (o, false)
  | FSet k rest =>
    if (f_frozen o && negb (existsb (String.eqb k) (f_attrs o)))%bool then (o, true)
    else frun rest (mkF (if existsb (String.eqb k) (f_attrs o) then f_attrs o else (f_attrs o ++ [k])%list) (f_frozen o) (f_depth o))
  | FRaise => (o, true)
  | FCall body rest =>
    let '(o1, e) := frun body (mkF (f_attrs o) false (f_depth o + 1)) in
    if e then (o1, true)
    else let d := f_depth o1 - 1 in frun rest (mkF (f_attrs o1) (d =? 0) d)
  | FTry body rest => let '(o1, _) := frun body o in frun rest o1
  end.
