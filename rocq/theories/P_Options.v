(** C31-C34: option objects, paired options, tracer registration, frozen objects. *)
From Coq Require Import String Ascii.
From Verif Require Import Num Exporter_Model Exporter_Proofs Callback_Proofs Options_Model Options_Table Options_Spec Options_Proofs Options_Proofs2.
Open Scope string_scope.
Open Scope Z_scope.

(** * C31 *)

(** An option accepts exactly the values of its declared domain. *)
Theorem C31_accepts_exactly_the_domain h d v : validate h d v = true <-> allowed h d v.
Proof. apply validate_iff. Qed.

(** Every option holds an allowed value after any history of assignments,
    updates and nested assignments, failing ones included. *)
Theorem C31_values_always_valid h c sub o ops :
  pairs_ok h c -> valid_obj h c sub o -> Forall (op_values_ok h sub) ops ->
  forall k d, dict_get (oc_decls c) k = Some d ->
  allowed h d (getopt c (optrun h c sub o ops) k).
Proof. intros Hp V F k d Hd. exact (proj1 (optrun_valid h c sub Hp ops o F V k d Hd)). Qed.

(** The same for the settings inside attached option objects. *)
Theorem C31_nested_values_always_valid h c sub o ops :
  pairs_ok h c -> valid_obj h c sub o -> Forall (op_values_ok h sub) ops ->
  forall k d s v, dict_get (oc_decls c) k = Some d ->
  sub_setting c (optrun h c sub o ops) k s = Some v ->
  exists cls st ds, getopt c (optrun h c sub o ops) k = VObj cls st /\ dict_get (sub cls) s = Some ds /\ allowed h ds v.
Proof.
  intros Hp V F k d s v Hd Hs. destruct (optrun_valid h c sub Hp ops o F V k d Hd) as [_ B].
  unfold sub_setting in Hs. destruct (getopt c (optrun h c sub o ops) k) eqn:E; try discriminate.
  destruct (B cls settings s v eq_refl Hs) as [ds [H1 H2]]. now exists cls, settings, ds.
Qed.

(** A rejected assignment changes nothing. *)
Theorem C31_rejected_assignment_changes_nothing h c o k v o' e :
  pairs_ok h c -> setattr h c o k v = (o', Some e) -> o' = o.
Proof. intros Hp. now apply setattr_rejected. Qed.

(** An accepted assignment stores the value; a value outside the domain is
    rejected. *)
Theorem C31_assignment_stores h c o k d v :
  pairs_ok h c -> dict_get (oc_decls c) k = Some d ->
  (allowed h d v -> exists o', setattr h c o k v = (o', None) /\ getopt c o' k = v) /\
  (~ allowed h d v -> setattr h c o k v = (o, Some OTraitError)).
Proof.
  intros Hp Hd. split.
  - intros Ha. destruct (setattr_accepted h c Hp o k d v Hd Ha) as [o' [E A]].
    exists o'. split; [exact E|]. eapply setattr_getopt; eauto.
    intros p Ep. exact (proj1 (proj2 (Hp k p Ep) k p Ep)).
  - intros Hn. unfold setattr. unfold hasattr. rewrite Hd, andb_false_r. unfold store.
    destruct (validate h d v) eqn:Ev; [apply validate_iff in Ev; contradiction|reflexivity].
Qed.

(** Assigning one option leaves every other option alone (except the object
    slaved to it). *)
Theorem C31_assignment_is_local h c o k v j :
  pairs_ok h c -> j <> k -> (forall p, dict_get (oc_pairs c) k = Some p -> p_name p <> j) ->
  getopt c (fst (setattr h c o k v)) j = getopt c o j.
Proof.
  intros Hp N Hk. destruct (setattr_cases h c Hp o k v) as [[e E]|[o' [E A]]].
  - now rewrite E.
  - rewrite E. eapply setattr_other; eauto.
Qed.

(** Once the object is frozen, a name that is not an attribute is rejected, and
    the set of attributes stays what it was, whatever is done to the object. *)
Theorem C31_unknown_names_rejected h c sub o ops k v :
  pairs_ok h c -> o_frozen o = true -> hasattr c o k = false ->
  setattr h c (optrun h c sub o ops) k v = (optrun h c sub o ops, Some OTypeError).
Proof.
  intros Hp Hf Hk. destruct (optrun_hasattr h c sub Hp ops k o Hf) as [H1 H2].
  unfold setattr. now rewrite H1, H2, Hk.
Qed.

(** update() is the sequence of single assignments up to the first rejected one. *)
Theorem C31_update_is_a_prefix h c o kvs :
  pairs_ok h c ->
  exists done rest, kvs = (done ++ rest)%list /\
    fst (update h c o kvs) = fold_left (fun o kv => fst (setattr h c o (fst kv) (snd kv))) done o /\
    match rest with
    | [] => snd (update h c o kvs) = None
    | (k, v) :: _ => exists e, setattr h c (fst (update h c o kvs)) k v = (fst (update h c o kvs), Some e) /\
                     snd (update h c o kvs) = Some e
    end.
Proof.
  intros Hp. revert o. induction kvs as [|[k v] r IH]; intros o; cbn [update].
  - exists [], []. now repeat split.
  - destruct (setattr h c o k v) as [o1 [e|]] eqn:E.
    + pose proof (setattr_rejected h c Hp _ _ _ _ _ E) as ->. exists [], ((k, v) :: r).
      repeat split. exists e. cbn [fst snd]. now split.
    + destruct (IH o1) as [done [rest [H1 [H2 H3]]]]. exists ((k, v) :: done), rest. subst r. split; [reflexivity|].
      cbn [fold_left fst snd]. rewrite E. now split.
Qed.

(** Refuted clause: update() with one invalid value is not atomic. *)
Theorem C31_update_atomic_refuted :
  exists o kvs o' e, update hierarchy ModelOptions2d_class o kvs = (o', Some e) /\
  getopt ModelOptions2d_class o' "timestep" <> getopt ModelOptions2d_class o "timestep".
Proof.
  exists (new_obj []), [("timestep", VInt 5); ("cfl_2d", VInt 0)]. eexists. exists OTraitError.
  split; [vm_compute; reflexivity|]. vm_compute. discriminate.
Qed.

(** Every option class of the repository satisfies the hypotheses above: pairings
    are well formed and a new object is valid, i.e. every default is allowed. *)
Theorem C31_shipped_classes name c attrs :
  dict_get option_classes name = Some c ->
  pairs_ok hierarchy c /\ valid_obj hierarchy c decls_of (new_obj attrs).
Proof.
  intros H.
  assert (P : forall_dict option_classes (fun _ c =>
     forall_dict (oc_pairs c) (pair_check hierarchy c) &&
     forall_dict (oc_decls c) (fun k d => validate hierarchy d (d_default d) &&
        match d_default d with VObj _ st => match st with [] => true | _ => false end | _ => true end))%bool = true)
    by (vm_compute; reflexivity).
  pose proof (forall_dict_get _ _ _ _ P H) as K. cbn beta in K. apply andb_prop in K as [K1 K2].
  split; [now apply pair_check_ok|]. intros k d Hd. pose proof (forall_dict_get _ _ _ _ K2 Hd) as K. cbn beta in K.
  apply andb_prop in K as [K3 K4]. unfold getopt, dflt. cbn [new_obj o_vals dict_get]. rewrite Hd. split; [now apply validate_iff|].
  intros cls st k' x E. rewrite E in K4. destruct st; [discriminate|discriminate].
Qed.

Example C31_case :
  let h := hierarchy in let c := ModelOptions2d_class in
  let ops := [SetOpt "timestep" (VFloat (Fin (qq 5 2))); SetOpt "timestep" (VInt (-1)); SetOpt "polynomial_degree" (VInt 2);
              SetOpt "nosuch" VNone; SetOpt "element_family" (VStr "rt-dg"); SetOpt "element_family" (VStr "p1");
              SetOpt "simulation_end_time" VNone; UpdateOpts [("cfl_2d", VFloat PInf); ("cfl_3d", VFloat NaN)];
              SetSubOpt "swe_timestepper_options" "implicitness_theta" (VFloat (Fin (qq 3 4)));
              SetSubOpt "swe_timestepper_options" "implicitness_theta" (VFloat (Fin (qq 1 4)))] in
  let o := optrun h c decls_of (new_obj [("tracer", VOther)]) ops in
  Forall (op_values_ok h decls_of) ops /\
  (getopt c o "timestep", getopt c o "polynomial_degree", getopt c o "element_family", getopt c o "cfl_2d", getopt c o "cfl_3d") =
  (VFloat (Fin (qq 5 2)), VInt 2, VStr "rt-dg", VFloat PInf, VFloat (Fin (qq 1 1))) /\
  sub_setting c o "swe_timestepper_options" "implicitness_theta" = Some (VFloat (Fin (qq 3 4))) /\
  hasattr c o "nosuch" = false.
Proof.
  cbn zeta. split.
  - repeat constructor; cbn; try (intros cls st k x E; discriminate).
    intros k v [[= <- <-]|[[= <- <-]|[]]] cls st k1 x E; discriminate.
  - vm_compute. repeat split; reflexivity.
Qed.

(** * C32 *)

(** After any history that does not replace a slaved object by hand, every enum
    choice has an object of its paired class attached. *)
Theorem C32_options_object_follows_choice h c sub attrs ops e p :
  pairs_ok h c -> dict_get (oc_pairs c) e = Some p -> Forall (not_by_hand c) ops ->
  follows c (optrun h c sub (new_obj attrs) ops) e p.
Proof. intros Hp He F. apply optrun_follows; auto. now apply (new_follows h). Qed.

(** Assigning the current choice again changes no option and no setting. *)
Theorem C32_same_choice_keeps_settings h c o e p s j :
  pairs_ok h c -> dict_get (oc_pairs c) e = Some p -> getopt c o e = VStr s ->
  getopt c (fst (setattr h c o e (VStr s))) j = getopt c o j.
Proof.
  intros Hp He Hs. destruct (setattr_cases h c Hp o e (VStr s)) as [[x ->]|[o' [-> A]]]; [reflexivity|]. cbn [fst].
  destruct A as [Hn|d Hd Ha Hor|d p1 s1 cls1 Hd Ha Hk [= ->] Hsame Hc].
  - reflexivity.
  - rewrite getopt_with_val. destruct (String.eqb_spec j e) as [->|]; [now rewrite Hs|reflexivity].
  - rewrite Hs in Hsame. cbn in Hsame. rewrite String.eqb_refl in Hsame. discriminate.
Qed.

(** Choosing something else attaches a new object with default settings. *)
Theorem C32_new_choice_resets h c o e p s s' cls :
  pairs_ok h c -> dict_get (oc_pairs c) e = Some p -> getopt c o e = VStr s -> s' <> s ->
  dict_get (p_classes p) s' = Some cls ->
  (exists d, dict_get (oc_decls c) e = Some d /\ allowed h d (VStr s')) ->
  exists o', setattr h c o e (VStr s') = (o', None) /\ getopt c o' e = VStr s' /\ getopt c o' (p_name p) = VObj cls [].
Proof.
  intros Hp He Hs N Hc [d [Hd Ha]]. destruct (setattr_accepted h c Hp o e d _ Hd Ha) as [o' [E A]].
  exists o'. split; [exact E|].
  destruct A as [Hn|d' Hd' Ha' Hor|d' p1 s1 cls1 Hd' Ha' Hk [= <-] Hsame Hc1].
  - congruence.
  - exfalso. destruct Hor as [Hor|Hor]; [congruence|]. rewrite Hs in Hor. cbn in Hor. apply String.eqb_eq in Hor. congruence.
  - rewrite He in Hk. injection Hk as <-. rewrite Hc in Hc1. injection Hc1 as <-.
    rewrite !getopt_with_val, !String.eqb_refl. split; [|reflexivity].
    destruct (String.eqb_spec e (p_name p)) as [X|]; [|reflexivity].
    symmetry in X. exfalso. exact (proj1 (proj2 (Hp e p He) e p He) X).
Qed.

(** Refuted without the restriction: an object of another class can be attached
    by hand, because only the common base class is checked ... *)
Theorem C32_by_hand_refuted :
  exists ops e p, dict_get (oc_pairs ModelOptions2d_class) e = Some p /\
  ~ follows ModelOptions2d_class (optrun hierarchy ModelOptions2d_class decls_of (new_obj []) ops) e p.
Proof.
  exists [SetOpt "swe_timestepper_options" (VObj "SteadyStateTimeStepperOptions2d" [])], "swe_timestepper_type".
  eexists. split; [vm_compute; reflexivity|]. intros [s [cls [st [H1 [H2 H3]]]]].
  vm_compute in H1, H2, H3. injection H1 as <-. vm_compute in H2. injection H2 as <-. discriminate.
Qed.
(** ... and update() loses the settings when the dictionary lists the object
    before the choice. *)
Theorem C32_update_order_refuted :
  exists opts o1 o2,
    update hierarchy ModelOptions2d_class (new_obj []) [("swe_timestepper_type", VStr "BackwardEuler"); ("swe_timestepper_options", opts)] = (o1, None) /\
    update hierarchy ModelOptions2d_class (new_obj []) [("swe_timestepper_options", opts); ("swe_timestepper_type", VStr "BackwardEuler")] = (o2, None) /\
    getopt ModelOptions2d_class o1 "swe_timestepper_options" = opts /\
    getopt ModelOptions2d_class o2 "swe_timestepper_options" <> opts.
Proof.
  exists (VObj "SemiImplicitSWETimeStepperOptions2d" [("use_semi_implicit_linearization", VBool true)]).
  eexists. eexists. split; [vm_compute; reflexivity|]. split; [vm_compute; reflexivity|]. split; [vm_compute; reflexivity|].
  vm_compute. discriminate.
Qed.

(** set_timestepper_type: when it returns, every component has the type, an
    object of the matching class, and every keyword setting. *)
Theorem C32_set_timestepper_type h c sub o comps ty kw o' :
  pairs_ok h c ->
  (forall e sl, In (e, sl) comps -> exists p, dict_get (oc_pairs c) e = Some p /\ p_name p = sl) ->
  (forall e p, dict_get (oc_pairs c) e = Some p -> follows c o e p) ->
  NoDup (map fst kw) ->
  set_timestepper_type h c sub o comps ty kw = (o', None) ->
  (forall e sl, In (e, sl) comps -> getopt c o' e = ty) /\
  (forall e p, dict_get (oc_pairs c) e = Some p -> follows c o' e p) /\
  (forall e sl k v, In (e, sl) comps -> In (k, v) kw -> sub_setting c o' sl k = Some v).
Proof.
  intros Hp Hc F ND E. unfold set_timestepper_type in E.
  destruct (set_types h c o (map fst comps) ty) as [o1 [x|]] eqn:E1; [discriminate|].
  destruct (set_types_spec h c Hp ty (map fst comps) o o1) as [G1 F1]; [|exact E1|exact F|].
  { intros e He. apply in_map_iff in He as [[e' sl] [<- Hin]]. destruct (Hc _ _ Hin) as [p [Hpp _]]. now exists p. }
  assert (En : forall e sl, In (e, sl) comps -> getopt c o1 e = ty).
  { intros e sl Hin. apply G1; [left; apply in_map_iff; now exists (e, sl)|]. destruct (Hc _ _ Hin) as [p [Hpp _]]. now exists p. }
  split; [|split].
  - intros e sl Hin. specialize (En e sl Hin). destruct (Hc _ _ Hin) as [p [Hpp _]]. destruct (F1 e p Hpp) as [s [cls [st [H1 _]]]].
    rewrite H1 in En. subst ty. pose proof (set_kwargs_enum h c sub (map snd comps) e s kw o1 H1) as K. rewrite E in K. exact K.
  - intros e p He. pose proof (set_kwargs_follows h c sub (map snd comps) e p He kw o1 (F1 e p He)) as K. rewrite E in K. exact K.
  - intros e sl k v Hin Hk. destruct (set_kwargs_sets h c sub (map snd comps) kw o1 o' ND E) as [S1 _].
    apply (S1 sl k v); [apply in_map_iff; now exists (e, sl)|exact Hk].
Qed.

(** Refuted clause: a type that only the shallow water equations have is
    rejected after the shallow water type has been changed. *)
Theorem C32_set_timestepper_type_atomic_refuted :
  exists ty o' e,
    set_timestepper_type hierarchy ModelOptions2d_class decls_of (new_obj [])
      [("swe_timestepper_type", "swe_timestepper_options"); ("tracer_timestepper_type", "tracer_timestepper_options")] ty [] = (o', Some e) /\
    getopt ModelOptions2d_class o' "swe_timestepper_type" = ty /\
    getopt ModelOptions2d_class o' "tracer_timestepper_type" <> ty.
Proof. exists (VStr "PressureProjectionPicard"). do 2 eexists. split; [vm_compute; reflexivity|]. split; [vm_compute; reflexivity|]. vm_compute. discriminate. Qed.

Example C32_case :
  let c := ModelOptions2d_class in
  let ops := [SetSubOpt "swe_timestepper_options" "implicitness_theta" (VFloat (Fin (qq 3 4)));
              SetOpt "swe_timestepper_type" (VStr "CrankNicolson");
              SetOpt "tracer_timestepper_type" (VStr "SSPRK33");
              SetOpt "swe_timestepper_type" (VStr "nonsense")] in
  let o := optrun hierarchy c decls_of (new_obj []) ops in
  Forall (not_by_hand c) ops /\ pairs_ok hierarchy c /\
  getopt c o "swe_timestepper_options" = VObj "CrankNicolsonSWETimeStepperOptions2d" [("implicitness_theta", VFloat (Fin (qq 3 4)))] /\
  getopt c o "tracer_timestepper_options" = VObj "ExplicitTracerTimeStepperOptions2d" [] /\
  exists o', set_timestepper_type hierarchy c decls_of o
      [("swe_timestepper_type", "swe_timestepper_options"); ("tracer_timestepper_type", "tracer_timestepper_options")]
      (VStr "DIRK22") [("use_semi_implicit_linearization", VBool true)] = (o', None).
Proof.
  cbn zeta. split; [|split; [apply (C31_shipped_classes "ModelOptions2d" _ []); reflexivity|]].
  - repeat constructor; cbn [not_by_hand]; intros e p H; vm_compute in H;
      repeat match type of H with
             | (match ?b with true => _ | false => _ end) = _ => destruct b
             end; try discriminate; injection H as <-; vm_compute; discriminate.
  - split; [vm_compute; reflexivity|]. split; [vm_compute; reflexivity|]. eexists. vm_compute. reflexivity.
Qed.

(** * C33 *)

(** After any history of successful calls, the tracers that get solved are the
    registered labels, each once, in the order of registration. *)
Theorem C33_each_tracer_solved_once ops r :
  succeeds reg0 ops r -> Forall op_plain ops ->
  solved r = map fst (r_tracer r) /\ map fst (r_tracer r) = concat (map op_labels ops) /\ NoDup (solved r).
Proof.
  intros S F. destruct (succeeds_good _ _ _ S F eq_refl) as [H1 H2]. split; [exact H1|]. split; [exact H2|]. rewrite H1.
  assert (E : r = regrun reg0 ops). { clear -S. induction S; [reflexivity|]. cbn. rewrite H. exact IHS. }
  rewrite E. apply (regrun_inv (fun d => NoDup (map fst d))); [|constructor]. intros. now apply add1_nodup.
Qed.

(** Whatever calls were made, failing ones included: labels are unique, every
    label has its own metadata, and an entry once made is never changed. *)
Theorem C33_registry_consistent ops1 ops2 :
  NoDup (map fst (r_tracer (regrun reg0 ops1))) /\
  (forall l t, dict_get (r_tracer (regrun reg0 ops1)) l = Some t -> t_meta t <> None) /\
  (forall l t, dict_get (r_tracer (regrun reg0 ops1)) l = Some t -> dict_get (r_tracer (regrun reg0 (ops1 ++ ops2))) l = Some t).
Proof.
  split; [|split].
  - apply (regrun_inv (fun d => NoDup (map fst d))); [|constructor]. intros. now apply add1_nodup.
  - apply (regrun_inv (fun d => forall l t, dict_get d l = Some t -> t_meta t <> None)); [|discriminate].
    intros r s k H. now apply add1_meta.
  - intros l t H. unfold regrun. rewrite fold_left_app. fold (regrun reg0 ops1).
    apply (regrun_inv (fun d => dict_get d l = Some t)); [|exact H]. intros r s k. apply add1_grows.
Qed.

(** A successful call stores the metadata it was given. *)
Theorem C33_metadata_stored r s kw r' :
  regstep r (AddTracer s kw) = (r', None) ->
  dict_get (r_tracer r') (s_label s) = Some (mkTracer (Some (s_name s,
     match s_short s with Some x => if String.eqb x "" then s_name s else x | None => s_name s end, s_unit s, s_file s))).
Proof.
  cbn [regstep]. fold (add1 r s kw). destruct (add1_cases r s kw) as [->|[E [_ ->]]]; [discriminate|]. cbn zeta.
  destruct (kw_ok kw); [|discriminate]. intros [= <-].
  assert (K : dict_get (r_tracer r ++ [(s_label s, mkTracer (Some (meta_of s)))])%list (s_label s) = Some (mkTracer (Some (meta_of s)))).
  { rewrite dict_get_app, E. cbn. now rewrite String.eqb_refl. }
  destruct (k_mixed kw); exact K.
Qed.

(** A label that is taken, or contains a space or a comma, is rejected and
    nothing changes. *)
Theorem C33_bad_label_rejected r s kw :
  In (s_label s) (map fst (r_tracer r)) \/ has_char " " (s_label s) = true \/ has_char "," (s_label s) = true \/ has_char " " (s_file s) = true ->
  regstep r (AddTracer s kw) = (r, Some OAssertion).
Proof.
  intros H. cbn. unfold add_tracer_2d.
  destruct (dict_get (r_tracer r) (s_label s)) eqn:E; [reflexivity|].
  destruct H as [H|[H|[H|H]]]; [apply dict_get_in in H; contradiction| | |]; rewrite H; rewrite ?orb_true_r; reflexivity.
Qed.

(** Refuted clauses.  A coefficient of the wrong kind is noticed only after the
    label has been registered: the tracer stays registered but is never solved. *)
Theorem C33_bad_coefficient_refuted :
  exists s kw r' e, regstep reg0 (AddTracer s kw) = (r', Some e) /\ map fst (r_tracer r') = [s_label s] /\ solved r' = [].
Proof.
  exists (mkSpec "c_2d" "c" "C" None "-"), (mkKw None (Some false) None None false). do 2 eexists.
  split; [vm_compute; reflexivity|]. split; reflexivity.
Qed.
(** A rejected system leaves a key without tracers behind, and keeps the tracers
    added before the failure. *)
Theorem C33_system_atomic_refuted :
  exists specs r' e, regstep reg0 (AddSystem specs []) = (r', Some e) /\
  map fst (r_tracer r') = ["a_2d"] /\ solved r' = ["a_2d"; "b"; "2d"] /\ map s_label specs = ["a_2d"; "b,2d"].
Proof.
  exists [mkSpec "a_2d" "a" "A" None "-"; mkSpec "b,2d" "b" "B" None "-"]. do 2 eexists.
  split; [vm_compute; reflexivity|]. repeat split; reflexivity.
Qed.
(** An empty system succeeds and makes the solver look for a tracer named ''. *)
Theorem C33_empty_system_refuted :
  exists r', regstep reg0 (AddSystem [] []) = (r', None) /\ r_tracer r' = [] /\ solved r' = [""].
Proof. eexists. split; [vm_compute; reflexivity|]. split; reflexivity. Qed.

Example C33_case :
  let ops := [AddTracer (mkSpec "a_2d" "a" "A" None "-") no_kwargs;
              AddSystem [mkSpec "b_2d" "b" "B" (Some "bb") "kg"; mkSpec "c_2d" "c" "C" None "-"] [];
              AddTracer (mkSpec "d_2d" "d" "D" None "-") (mkKw (Some true) None (Some true) None false)] in
  exists r, succeeds reg0 ops r /\ Forall op_plain ops /\ solved r = ["a_2d"; "b_2d"; "c_2d"; "d_2d"] /\ r_fields r = ["a_2d"; "b_2d,c_2d"; "d_2d"].
Proof.
  cbn zeta. eexists. split; [|split; [|split]].
  - repeat (eapply S_cons; [vm_compute; reflexivity|]). apply S_nil.
  - repeat constructor. cbn. discriminate.
  - vm_compute. reflexivity.
  - vm_compute. reflexivity.
Qed.

(** * C34 *)

(** Outside decorated methods a frozen object never gets a new attribute. *)
Theorem C34_frozen_keeps_attributes p o : outside p -> f_frozen o = true -> fst (frun p o) = o.
Proof. intros. now apply frun_outside. Qed.
(** Setting an attribute that does not exist on a frozen object raises. *)
Theorem C34_unknown_attribute_raises k rest o :
  f_frozen o = true -> ~ In k (f_attrs o) -> frun (FSet k rest) o = (o, true).
Proof.
  intros Hf N. cbn. rewrite Hf. destruct (existsb (String.eqb k) (f_attrs o)) eqn:E; [|reflexivity].
  apply existsb_exists in E as [x [Hx E]]. apply String.eqb_eq in E. now subst.
Qed.
(** Code that runs without exceptions leaves a frozen object frozen, however
    decorated methods call each other. *)
Theorem C34_frozen_again p o o' :
  no_try p -> f_frozen o = true -> f_depth o = 0 -> frun p o = (o', false) ->
  f_frozen o' = true /\ f_depth o' = 0.
Proof.
  intros N Hf Hd E. destruct (frun_depth p o o' N E) as [H1 H2]. rewrite Hd in H1. split; [|exact H1].
  rewrite H2; rewrite ?H1, ?Hf, ?Hd; reflexivity.
Qed.
(** A constructor decorated with unfrozen (possibly calling decorated parent
    constructors) returns a frozen object. *)
Theorem C34_constructor_freezes attrs body o' :
  no_try body -> frun (FCall body FSkip) (mkF attrs false 0) = (o', false) -> f_frozen o' = true /\ f_depth o' = 0.
Proof.
  intros N E. cbn in E. destruct (frun body (mkF attrs false 1)) as [o1 [|]] eqn:E1; [discriminate|]. injection E as <-.
  destruct (frun_depth body _ _ N E1) as [H1 _]. cbn in H1. cbn. rewrite H1. split; reflexivity.
Qed.
(** Refuted clause: once a decorated method has raised and the exception was
    caught, the object is not frozen any more, and never will be again. *)
Theorem C34_exception_refuted :
  exists p o o1, f_frozen o = true /\ f_depth o = 0 /\ frun p o = (o1, true) /\
  forall q, f_frozen (fst (frun q o1)) = false.
Proof.
  exists (FCall FRaise FSkip), (mkF [] true 0). eexists. split; [reflexivity|]. split; [reflexivity|]. split; [reflexivity|].
  intros q. now apply frun_unfrozen.
Qed.

Example C34_case :
  let o := mkF ["a"] true 0 in
  let p := FSet "a" (FCall (FSet "b" (FCall (FSet "c" FSkip) (FSet "d" FSkip))) (FSet "b" FSkip)) in
  no_try p /\ frun p o = (mkF ["a"; "b"; "c"; "d"] true 0, false) /\
  frun (FSet "z" FSkip) (fst (frun p o)) = (fst (frun p o), true).
Proof. cbn. tauto. Qed.

Print Assumptions C31_accepts_exactly_the_domain.
Print Assumptions C31_values_always_valid.
Print Assumptions C31_nested_values_always_valid.
Print Assumptions C31_rejected_assignment_changes_nothing.
Print Assumptions C31_assignment_stores.
Print Assumptions C31_assignment_is_local.
Print Assumptions C31_unknown_names_rejected.
Print Assumptions C31_update_is_a_prefix.
Print Assumptions C31_update_atomic_refuted.
Print Assumptions C31_shipped_classes.
Print Assumptions C32_options_object_follows_choice.
Print Assumptions C32_same_choice_keeps_settings.
Print Assumptions C32_new_choice_resets.
Print Assumptions C32_by_hand_refuted.
Print Assumptions C32_update_order_refuted.
Print Assumptions C32_set_timestepper_type.
Print Assumptions C32_set_timestepper_type_atomic_refuted.
Print Assumptions C33_each_tracer_solved_once.
Print Assumptions C33_registry_consistent.
Print Assumptions C33_metadata_stored.
Print Assumptions C33_bad_label_rejected.
Print Assumptions C33_bad_coefficient_refuted.
Print Assumptions C33_system_atomic_refuted.
Print Assumptions C33_empty_system_refuted.
Print Assumptions C34_frozen_keeps_attributes.
Print Assumptions C34_unknown_attribute_raises.
Print Assumptions C34_frozen_again.
Print Assumptions C34_constructor_freezes.
Print Assumptions C34_exception_refuted.
