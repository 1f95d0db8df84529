(** Vocabulary for the properties of option objects (C31-C34). *)
From Coq Require Import String Ascii.
From Verif Require Import Num Exporter_Model Options_Model.
Open Scope string_scope.
Open Scope Z_scope.

(** ** Domains *)

(** [v] is a Python integer (True and False count as 1 and 0) with value [z] *)
Definition int_value (v : pyval) (z : Z) : Prop :=
  v = VInt z \/ (v = VBool true /\ z = 1) \/ (v = VBool false /\ z = 0).
(** [v] is a number with value [f] *)
Definition num_value (v : pyval) (f : pyfloat) : Prop :=
  v = VFloat f \/ exists z, int_value v z /\ f = Fin (qz z).

Definition f_positive (f : pyfloat) : Prop := f = PInf \/ exists q, f = Fin q /\ (0 < q)%Qc.
Definition f_nonneg (f : pyfloat) : Prop := f = PInf \/ exists q, f = Fin q /\ (0 <= q)%Qc.
Definition f_between (lo hi : Qc) (f : pyfloat) : Prop := exists q, f = Fin q /\ (lo <= q)%Qc /\ (q <= hi)%Qc.

(** the declared domain of an option *)
Definition in_domain (h : classes) (t : trait) (v : pyval) : Prop :=
  match t with
  | TInt => exists z, int_value v z
  | TPosInt => exists z, int_value v z /\ 0 < z
  | TNonNegInt => exists z, int_value v z /\ 0 <= z
  | TBndInt lo hi => exists z, int_value v z /\ lo <= z <= hi
  | TFloat => exists f, num_value v f
  | TPosFloat => exists f, num_value v f /\ f_positive f
  | TNonNegFloat => exists f, num_value v f /\ f_nonneg f
  | TBndFloat lo hi => exists f, num_value v f /\ f_between lo hi f
  | TBool => exists b, v = VBool b
  | TUnicode => exists s, v = VStr s
  | TEnum values => exists s, v = VStr s /\ In s values
  | TConstant => exists s, v = VUfl UConstant s
  | TCoefficient => exists s, v = VUfl UConstant s \/ v = VUfl UFunction s
  | TScalar => exists k, v = VUfl k true
  | TVector => exists k, v = VUfl k false
  | TDatetime => v = VDatetime true
  | TDict => v = VDict
  | TList => v = VList
  | TType => v = VType
  | TInstance base => exists cls st, v = VObj cls st /\ isinstance_of h cls base = true
  end.
(** None is allowed exactly where the declaration says so *)
Definition allowed (h : classes) (d : decl) (v : pyval) : Prop :=
  (v = VNone /\ d_none d = true) \/ (v <> VNone /\ in_domain h (d_trait d) v).

(** the settings inside an options object are allowed by its class *)
Definition sub_allowed (h : classes) (sub : string -> list (string * decl)) (v : pyval) : Prop :=
  forall cls st k x, v = VObj cls st -> dict_get st k = Some x ->
  exists d, dict_get (sub cls) k = Some d /\ allowed h d x.

(** every option of the object can be read and gives an allowed value *)
Definition valid_obj (h : classes) (c : optclass) (sub : string -> list (string * decl)) (o : obj) : Prop :=
  forall k d, dict_get (oc_decls c) k = Some d ->
  allowed h d (getopt c o k) /\ sub_allowed h sub (getopt c o k).

(** option objects handed in by the user are themselves valid *)
Definition op_values_ok (h : classes) (sub : string -> list (string * decl)) (op : optop) : Prop :=
  match op with
  | SetOpt _ v => sub_allowed h sub v
  | UpdateOpts kvs => forall k v, In (k, v) kvs -> sub_allowed h sub v
  | SetSubOpt _ _ v => True
  end.

(** ** Paired options *)

(** the declarations of a class are well formed: a choice always has a class,
    an object of that class may be stored in the slaved option, the defaults
    match, and pairings do not interfere *)
Definition pairs_ok (h : classes) (c : optclass) : Prop :=
  forall e p, dict_get (oc_pairs c) e = Some p ->
    (exists vals s0 cls0,
        dict_get (oc_decls c) e = Some (mkDecl (TEnum vals) false (VStr s0)) /\
        In s0 vals /\
        dict_get (p_classes p) s0 = Some cls0 /\
        (forall s, In s vals -> exists cls, dict_get (p_classes p) s = Some cls) /\
        exists base, dict_get (oc_decls c) (p_name p) = Some (mkDecl (TInstance base) false (VObj cls0 [])) /\
          forall s cls, dict_get (p_classes p) s = Some cls -> isinstance_of h cls base = true) /\
    (forall e' p', dict_get (oc_pairs c) e' = Some p' -> p_name p' <> e /\ (e' <> e -> p_name p' <> p_name p)).

(** the slaved option holds an object of the class paired with the choice *)
Definition follows (c : optclass) (o : obj) (e : string) (p : pairing) : Prop :=
  exists s cls st, getopt c o e = VStr s /\ dict_get (p_classes p) s = Some cls /\ getopt c o (p_name p) = VObj cls st.

(** the operation does not replace a slaved object by hand *)
Definition not_by_hand (c : optclass) (op : optop) : Prop :=
  match op with
  | SetOpt k _ => forall e p, dict_get (oc_pairs c) e = Some p -> p_name p <> k
  | UpdateOpts kvs => forall k v, In (k, v) kvs -> forall e p, dict_get (oc_pairs c) e = Some p -> p_name p <> k
  | SetSubOpt _ _ _ => True
  end.

(** setting made inside the object stored in option [k] *)
Definition sub_setting (c : optclass) (o : obj) (k sub : string) : option pyval :=
  match getopt c o k with VObj _ st => dict_get st sub | _ => None end.

(** ** Tracers *)

(** the tracers that get solved: every key of [tracer_fields], split at the commas *)
Definition solved (r : registry) : list string := concat (map split_comma (r_fields r)).

(** a call that succeeded, as a relation on histories *)
Inductive succeeds : registry -> list regop -> registry -> Prop :=
| S_nil r : succeeds r [] r
| S_cons r op r1 ops r2 : regstep r op = (r1, None) -> succeeds r1 ops r2 -> succeeds r (op :: ops) r2.
(** history with failures *)
Definition regrun (r : registry) (ops : list regop) : registry := fold_left (fun r op => fst (regstep r op)) ops r.

(** the labels a call asks for *)
Definition op_labels (op : regop) : list string :=
  match op with AddTracer s _ => [s_label s] | AddSystem specs _ => map s_label specs end.
(** the call is not an empty system and does not claim to be part of one *)
Definition op_plain (op : regop) : Prop :=
  match op with AddTracer _ kw => k_mixed kw = false | AddSystem specs _ => specs <> [] end.
