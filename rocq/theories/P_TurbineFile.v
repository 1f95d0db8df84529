(** C86: turbine definition files. *)
From Coq Require Import String.
From Verif Require Import Num Exporter_Model Exporter_Proofs Callback_Proofs Options_Model Options_Table Options_Spec
  Options_Proofs P_Options TurbineFile_Model TurbineFile_Spec.
Open Scope string_scope.

(** ** Assignments from the file, one after the other *)
Fixpoint getpath (j : jval) (p : list string) : jval + ferr :=
  match p with
  | [] => inl j
  | k :: r => let* v := getitem j k in getpath v r
  end.
Fixpoint assign (o : farm_options) (data : jval) (l : list (string * list string)) : farm_options + ferr :=
  match l with
  | [] => inl o
  | (k, p) :: r => let* v := getpath data p in
                   let* o := set_turbine o k v in assign o data r
  end.

Lemma getpath_entry j p v : getpath j p = inl v <-> entry j p = Some v.
Proof.
  revert j. induction p as [|k r IH]; intros j; cbn [getpath entry].
  - split; intros [= ->]; reflexivity.
  - destruct j; cbn [getitem bind]; try (split; discriminate).
    destruct (dict_get d k); cbn [bind]; [apply IH|split; discriminate].
Qed.
Lemma getpath_ok j p : (exists v, getpath j p = inl v) <-> entry j p <> None.
Proof.
  split.
  - intros [v E]. apply getpath_entry in E. congruence.
  - destruct (entry j p) eqn:E; [|congruence]. intros _. apply getpath_entry in E. eauto.
Qed.

Lemma bind_assoc {A B C} (x : A + ferr) (f : A -> B + ferr) (g : B -> C + ferr) :
  bind (bind x f) g = bind x (fun a => bind (f a) g).
Proof. now destruct x. Qed.
Lemma bind_ext {A B} (x : A + ferr) (f g : A -> B + ferr) : (forall a, f a = g a) -> bind x f = bind x g.
Proof. intros H. destruct x; [apply H|reflexivity]. Qed.
Lemma bind_ret {A} (x : A + ferr) : bind x (fun a => inl a) = x.
Proof. now destruct x. Qed.
Lemma bind_inl {A B} (x : A + ferr) (f : A -> B + ferr) b :
  bind x f = inl b -> exists a, x = inl a /\ f a = inl b.
Proof. destruct x; [eauto|discriminate]. Qed.

Lemma assign_app o data a b : assign o data (a ++ b) = let* o := assign o data a in assign o data b.
Proof.
  revert o. induction a as [|[k p] r IH]; intros o; [reflexivity|]. cbn [app assign].
  rewrite bind_assoc. apply bind_ext. intro v. rewrite bind_assoc. apply bind_ext. intro o1. apply IH.
Qed.

(** the rest of load_turbine after the choice of the type *)
Definition finish (discrete : bool) (data : jval) (opts : farm_options) : farm_options + ferr :=
  let* opts :=
    if discrete then
      let* v := get data "upwind_correction" (JVal (VBool true)) in
      set_upwind opts v
    else inl opts in
  let* name := getitem data "name" in
  inl (set_density opts name).

Lemma load_assign include_support discrete data :
  load_data include_support discrete data =
  let* ty := get data "turbine_thrust_def" (JVal (VStr "constant")) in
  let* o := set_type (new_options discrete) ty in
  let* o := assign o data (entries (String.eqb (fo_type o) "table") (include_support && has_key data "support_structure")) in
  finish discrete data o.
Proof.
  unfold load_data. apply bind_ext. intro ty. apply bind_ext. intro o.
  unfold entries. rewrite assign_app, bind_assoc.
  assert (E1 : (if fo_type o =? "table"
     then
      let* curves := getitem data "curves" in
      let* v := getitem curves "speeds" in
      let* opts := set_turbine o "thrust_speeds" v in
      let* curves := getitem data "curves" in
      let* v := getitem curves "thrust" in
      let* opts := set_turbine opts "thrust_coefficients" v in
      let* curves := getitem data "curves" in
      let* v := getitem curves "power" in
      set_turbine opts "power_coefficients" v
     else
      let* v := getitem data "thrust_coefficient" in
      let* opts := set_turbine o "thrust_coefficient" v in
      let* v := getitem data "power_coefficient" in
      set_turbine opts "power_coefficient" v) = assign o data (curve_entries (fo_type o =? "table"))).
  { destruct (fo_type o =? "table"); cbn [curve_entries assign getpath].
    - rewrite !bind_assoc. apply bind_ext. intro cv. rewrite !bind_assoc. apply bind_ext. intro v. cbn [bind].
      apply bind_ext. intro o1.
      rewrite !bind_assoc. apply bind_ext. intro cv2. rewrite !bind_assoc. apply bind_ext. intro v2. cbn [bind].
      apply bind_ext. intro o2.
      rewrite !bind_assoc. apply bind_ext. intro cv3. rewrite !bind_assoc. apply bind_ext. intro v3. cbn [bind].
      symmetry. apply bind_ret.
    - rewrite !bind_assoc. apply bind_ext. intro v. cbn [bind].
      apply bind_ext. intro o1. rewrite !bind_assoc. apply bind_ext. intro v2. cbn [bind]. symmetry. apply bind_ret. }
  rewrite E1. apply bind_ext. clear E1 o. intro o. rewrite assign_app, bind_assoc.
  match goal with |- bind ?x _ = bind ?y _ => assert (E2 : x = y) end.
  { destruct (include_support && has_key data "support_structure")%bool; cbn [support_entries assign getpath]; [|reflexivity].
    rewrite !bind_assoc. apply bind_ext. intro c1. rewrite !bind_assoc. apply bind_ext. intro v1. cbn [bind].
    apply bind_ext. intro o1.
    rewrite !bind_assoc. apply bind_ext. intro c2. rewrite !bind_assoc. apply bind_ext. intro v2. cbn [bind].
    apply bind_ext. intro o2.
    rewrite !bind_assoc. apply bind_ext. intro c3. rewrite !bind_assoc. apply bind_ext. intro v3. cbn [bind].
    apply bind_ext. intro o3.
    rewrite !bind_assoc. apply bind_ext. intro c4. rewrite !bind_assoc. apply bind_ext. intro v4. cbn [bind].
    symmetry. apply bind_ret. }
  rewrite E2. apply bind_ext. clear E2 o. intro o. cbn [assign getpath]. rewrite !bind_assoc. apply bind_ext. intro v.
  cbn [bind]. rewrite bind_assoc. apply bind_ext. intro o1. cbn [bind]. reflexivity.
Qed.

(** ** What the assignments store *)
Definition kept (o o' : farm_options) : Prop :=
  fo_discrete o' = fo_discrete o /\ fo_type o' = fo_type o /\ fo_upwind o' = fo_upwind o /\ fo_name o' = fo_name o.

Lemma set_turbine_spec o k v o' : set_turbine o k v = inl o' ->
  kept o o' /\ fo_turbine o' = dict_set (fo_turbine o) k v /\
  exists d, dict_get (decls_of (turbine_class (fo_discrete o) (fo_type o))) k = Some d /\ allowed hierarchy d (erase v).
Proof.
  unfold set_turbine. destruct (dict_get _ k) as [d|]; [|discriminate].
  destruct (validate hierarchy d (erase v)) eqn:E; [|discriminate]. intros [= <-].
  split; [now repeat split|]. split; [reflexivity|]. exists d. split; [reflexivity|]. now apply validate_iff.
Qed.
Lemma set_turbine_ok o k v d :
  dict_get (decls_of (turbine_class (fo_discrete o) (fo_type o))) k = Some d -> allowed hierarchy d (erase v) ->
  exists o', set_turbine o k v = inl o'.
Proof. intros Hd Ha. unfold set_turbine. rewrite Hd. apply validate_iff in Ha. rewrite Ha. eauto. Qed.

Lemma assign_spec data l o o' : assign o data l = inl o' ->
  kept o o' /\
  (forall k : string, ~ In k (map fst l) -> dict_get (fo_turbine o') k = dict_get (fo_turbine o) k) /\
  (NoDup (map fst l) -> forall k p, In (k, p) l ->
     exists v d, entry data p = Some v /\ dict_get (fo_turbine o') k = Some v /\
     dict_get (decls_of (turbine_class (fo_discrete o) (fo_type o))) k = Some d /\ allowed hierarchy d (erase v)).
Proof.
  revert o. induction l as [|[k p] r IH]; intros o; cbn [assign].
  - intros [= <-]. split; [now repeat split|]. split; [reflexivity|]. intros _ k p [].
  - intros E. apply bind_inl in E as [v [Ev E]]. apply bind_inl in E as [o1 [E1 E]].
    apply getpath_entry in Ev. destruct (set_turbine_spec _ _ _ _ E1) as ((K1 & K2 & K3 & K4) & Ht & d & Hd & Ha).
    destruct (IH _ E) as ((L1 & L2 & L3 & L4) & Hk & Hin). split; [repeat split; congruence|]. split.
    + intros k' Hn. cbn [map fst] in Hn. rewrite Hk, Ht, dict_get_set by (intro H; apply Hn; now right).
      destruct (String.eqb_spec k' k) as [->|]; [|reflexivity]. exfalso. apply Hn. now left.
    + intros Nd k' p' [[= <- <-]|Hi]; cbn [map fst] in Nd; inversion Nd as [|x y Hx Hy]; subst.
      * exists v, d. rewrite Hk, Ht, dict_get_set, String.eqb_refl by exact Hx. now repeat split.
      * destruct (Hin Hy k' p' Hi) as (v' & d' & A & B & C & D). exists v', d'. rewrite K1, K2 in C. now repeat split.
Qed.
Lemma assign_ok data l o :
  Forall (fun e => exists v d, entry data (snd e) = Some v /\
     dict_get (decls_of (turbine_class (fo_discrete o) (fo_type o))) (fst e) = Some d /\ allowed hierarchy d (erase v)) l ->
  exists o', assign o data l = inl o'.
Proof.
  revert o. induction l as [|[k p] r IH]; intros o F; cbn [assign]; [eauto|].
  inversion F as [|x y (v & d & Hv & Hd & Ha) Fr]; subst. cbn [fst snd] in *.
  apply getpath_entry in Hv. rewrite Hv. cbn [bind]. destruct (set_turbine_ok _ _ _ _ Hd Ha) as [o1 E1].
  rewrite E1. cbn [bind]. apply IH. destruct (set_turbine_spec _ _ _ _ E1) as ((K1 & K2 & _) & _).
  rewrite K1, K2. exact Fr.
Qed.

Lemma entries_nodup t s : NoDup (map fst (entries t s)).
Proof.
  destruct t, s; cbn; repeat (constructor; [cbn; intuition discriminate|]); constructor.
Qed.
Lemma class_of_type (discrete t : bool) :
  decls_of (turbine_class discrete (if t then "table" else "constant")) = oc_decls (options_class t).
Proof. destruct discrete, t; reflexivity. Qed.
Lemma type_decl (discrete : bool) : dict_get (oc_decls (farm_class discrete)) "turbine_type" =
  Some (mkDecl (TEnum ["constant"; "table"]) false (VStr "constant")).
Proof. destruct discrete; reflexivity. Qed.
Lemma set_type_spec discrete v o : set_type (new_options discrete) v = inl o ->
  exists s, erase v = VStr s /\ (s = "constant" \/ s = "table") /\ o = mkFO discrete s [] None None.
Proof.
  unfold set_type. cbn [fo_discrete new_options fo_turbine fo_upwind fo_name fo_type]. rewrite type_decl.
  destruct (validate _ _ _) eqn:E; [|discriminate].
  destruct (erase v) eqn:Ev; try discriminate. intros [= <-]. exists s. split; [reflexivity|].
  cbn in E. split.
  - destruct (String.eqb_spec s "constant"); [now left|]. destruct (String.eqb_spec s "table"); [now right|discriminate].
  - now destruct (s =? "constant").
Qed.
Lemma erase_str v s : erase v = VStr s -> v = JVal (VStr s).
Proof. destruct v as [v| |]; cbn; try discriminate. destruct v; cbn; try discriminate. now intros ->. Qed.

(** everything a successful load has done *)
Lemma load_inv include_support discrete data o : load_data include_support discrete data = inl o ->
  exists d, data = JDict d /\
  let table := tabulated data in let support := supported include_support data in
  (entry data ["turbine_thrust_def"] = None \/
   entry data ["turbine_thrust_def"] = Some (JVal (VStr (if table then "table" else "constant")))) /\
  fo_discrete o = discrete /\ fo_type o = (if table then "table" else "constant") /\
  (forall k : string, ~ In k (map fst (entries table support)) -> dict_get (fo_turbine o) k = None) /\
  (forall k p, In (k, p) (entries table support) ->
     exists v dd, entry data p = Some v /\ dict_get (fo_turbine o) k = Some v /\
     dict_get (oc_decls (options_class table)) k = Some dd /\ allowed hierarchy dd (erase v)) /\
  fo_upwind o = (if discrete then Some (match entry data ["upwind_correction"] with Some v => v | None => JVal (VBool true) end) else None) /\
  (discrete = true -> exists b, fo_upwind o = Some (JVal (VBool b))) /\
  fo_name o = entry data ["name"] /\ fo_name o <> None.
Proof.
  rewrite load_assign. intros E. apply bind_inl in E as [ty [Ety E]]. apply bind_inl in E as [o1 [E1 E]].
  apply bind_inl in E as [o2 [E2 E]].
  destruct data as [|?|d]; try discriminate Ety. exists d. split; [reflexivity|]. cbv zeta. cbn [get] in Ety. injection Ety as Ety.
  destruct (set_type_spec _ _ _ E1) as (s & Es & Hs & ->). apply erase_str in Es. subst ty.
  cbn [fo_type] in E2.
  assert (Ht : tabulated (JDict d) = (s =? "table")).
  { unfold tabulated. cbn [entry]. destruct (dict_get d "turbine_thrust_def") as [v|] eqn:Ev.
    - rewrite Es. reflexivity.
    - injection Es as <-. reflexivity. }
  assert (Hsup : (include_support && has_key (JDict d) "support_structure")%bool = supported include_support (JDict d)).
  { unfold supported. cbn [has_key entry]. destruct include_support; [|reflexivity]. cbn [andb]. now destruct (dict_get d "support_structure"). }
  assert (Hty : (if tabulated (JDict d) then "table" else "constant") = s).
  { rewrite Ht. destruct Hs as [-> | ->]; reflexivity. }
  rewrite Hsup, <- Ht in E2.
  destruct (assign_spec _ _ _ _ E2) as ((K1 & K2 & K3 & K4) & Hn & Hin). cbn [fo_discrete fo_type fo_upwind fo_name fo_turbine] in *.
  rewrite Hty. split.
  { cbn [entry]. destruct (dict_get d "turbine_thrust_def") as [v|]; [right; now rewrite Es|now left]. }
  specialize (Hin (entries_nodup _ _)).
  assert (Hin' : forall k p, In (k, p) (entries (tabulated (JDict d)) (supported include_support (JDict d))) ->
     exists v dd, entry (JDict d) p = Some v /\ dict_get (fo_turbine o2) k = Some v /\
     dict_get (oc_decls (options_class (tabulated (JDict d)))) k = Some dd /\ allowed hierarchy dd (erase v)).
  { intros k p Hi. destruct (Hin k p Hi) as (v & dd & A & B & C & D). exists v, dd. rewrite <- Hty, class_of_type in C. now repeat split. }
  clear Hin. unfold finish in E. apply bind_inl in E as [o3 [E3 E]]. apply bind_inl in E as [nm [En E]].
  injection E as <-. cbn [set_density fo_discrete fo_type fo_turbine fo_upwind fo_name].
  assert (Hnm : entry (JDict d) ["name"] = Some nm).
  { cbn [getitem entry] in *. destruct (dict_get d "name"); [injection En as <-; reflexivity|discriminate]. }
  rewrite Hnm.
  destruct discrete.
  - apply bind_inl in E3 as [u [Eu E3]]. cbn [get] in Eu. injection Eu as Eu.
    unfold set_upwind in E3. rewrite K1 in E3. cbn [farm_class] in E3.
    destruct (dict_get (oc_decls DiscreteTidalTurbineFarmOptions_class) "upwind_correction") as [dd|] eqn:Edd; [|discriminate].
    cbn in Edd. injection Edd as <-.
    destruct (validate hierarchy _ (erase u)) eqn:Ev; [|discriminate]. injection E3 as <-.
    cbn [fo_discrete fo_type fo_turbine fo_upwind fo_name]. rewrite K2.
    repeat split; try assumption.
    + cbn [entry]. rewrite <- Eu. now destruct (dict_get d "upwind_correction").
    + intros _. destruct u as [[]| |]; try discriminate Ev. now exists b.
    + discriminate.
  - injection E3 as <-. rewrite K1, K2, K3. repeat split; try assumption; discriminate.
Qed.

(** * C86 *)

(** Loading succeeds exactly for complete files whose values are allowed. *)
Theorem C86_loads_exactly_good_files include_support discrete data :
  (exists o, load_data include_support discrete data = inl o) <-> good_file include_support discrete data.
Proof.
  split.
  - intros [o E]. destruct (load_inv _ _ _ _ E) as (d & Hd & H). cbv zeta in H.
    destruct H as (H1 & H2 & H3 & H4 & H5 & H6 & H7 & H8 & H9).
    split; [eauto|]. split; [|split; [|split]].
    + destruct H1 as [H1|H1]; [now left|]. right. destruct (tabulated data); [now right|now left].
    + apply Forall_forall. intros [k p] Hi. destruct (H5 k p Hi) as (v & dd & A & B & C & D).
      exists v, dd. cbn [fst snd]. now repeat split.
    + intros ->. destruct (H7 eq_refl) as [b Hb]. rewrite Hb in H6.
      destruct (entry data ["upwind_correction"]) as [u|]; [right; exists b; congruence|now left].
    + congruence.
  - intros ((d & ->) & Ht & F & Hu & Hn). rewrite load_assign. cbn [get bind].
    assert (Es : exists s, (match dict_get d "turbine_thrust_def" with Some v => v | None => JVal (VStr "constant") end) = JVal (VStr s) /\
                 (s = "constant" \/ s = "table") /\ tabulated (JDict d) = (s =? "table")).
    { unfold tabulated. cbn [entry] in *. destruct (dict_get d "turbine_thrust_def") as [v|].
      - destruct Ht as [Ht|[Ht|Ht]]; [discriminate| |]; injection Ht as ->; eexists; (split; [reflexivity|]); split; auto.
      - exists "constant". repeat split. now left. }
    destruct Es as (s & -> & Hs & Hts).
    assert (E1 : set_type (new_options discrete) (JVal (VStr s)) = inl (mkFO discrete s [] None None)).
    { unfold set_type. cbn [fo_discrete new_options fo_turbine fo_upwind fo_name fo_type]. rewrite type_decl.
      destruct Hs as [-> | ->]; reflexivity. }
    rewrite E1. cbn [bind fo_type].
    assert (Hsup : (include_support && has_key (JDict d) "support_structure")%bool = supported include_support (JDict d)).
    { unfold supported. cbn [has_key entry]. destruct include_support; [|reflexivity]. cbn [andb]. now destruct (dict_get d "support_structure"). }
    rewrite Hsup, <- Hts.
    assert (Hty : (if tabulated (JDict d) then "table" else "constant") = s).
    { rewrite Hts. destruct Hs as [-> | ->]; reflexivity. }
    destruct (assign_ok (JDict d) (entries (tabulated (JDict d)) (supported include_support (JDict d))) (mkFO discrete s [] None None)) as [o2 E2].
    { cbn [fo_discrete fo_type]. rewrite <- Hty, class_of_type. exact F. }
    rewrite E2. cbn [bind]. destruct (assign_spec _ _ _ _ E2) as ((K1 & K2 & K3 & K4) & _).
    cbn [fo_discrete fo_type fo_upwind fo_name] in *. unfold finish.
    cbn [entry getitem] in *. destruct (dict_get d "name") as [nm|]; [|congruence]. cbn [bind].
    destruct discrete; [|cbn [bind]; eauto].
    cbn [get bind]. unfold set_upwind. rewrite K1. cbn [farm_class].
    assert (Hb : exists b, match dict_get d "upwind_correction" with Some v => v | None => JVal (VBool true) end = JVal (VBool b)).
    { destruct (Hu eq_refl) as [H|[b H]]; destruct (dict_get d "upwind_correction"); try discriminate; [now exists true|injection H as ->; now exists b]. }
    destruct Hb as [b ->]. cbn. eauto.
Qed.

(** A loaded turbine has exactly the settings of the file ... *)
Theorem C86_settings_are_those_of_the_file include_support discrete data o :
  load_data include_support discrete data = inl o ->
  forall k p, In (k, p) (entries (tabulated data) (supported include_support data)) ->
  entry data p = Some (read o k).
Proof.
  intros E k p Hi. destruct (load_inv _ _ _ _ E) as (d & -> & H). cbv zeta in H.
  destruct H as (H1 & H2 & H3 & H4 & H5 & H6 & H7 & H8 & H9).
  destruct (H5 k p Hi) as (v & dd & A & B & _). unfold read. now rewrite B.
Qed.
(** ... and defaults everywhere else. *)
Theorem C86_other_settings_are_defaults include_support discrete data o :
  load_data include_support discrete data = inl o ->
  forall (k : string) (d : decl), dict_get (oc_decls (options_class (tabulated data))) k = Some d ->
  ~ In k (map fst (entries (tabulated data) (supported include_support data))) ->
  read o k = JVal (d_default d).
Proof.
  intros E k dk Hd Hn. destruct (load_inv _ _ _ _ E) as (d & -> & H). cbv zeta in H.
  destruct H as (H1 & H2 & H3 & H4 & H5 & H6 & H7 & H8 & H9). unfold read.
  rewrite (H4 _ Hn), H2, H3. unfold default_turbine. rewrite class_of_type, Hd.
  destruct (String.eqb_spec k "thrust_speeds") as [->|].
  { destruct (tabulated (JDict d)); [|discriminate Hd]. exfalso. apply Hn. now left. }
  destruct (String.eqb_spec k "thrust_coefficients") as [->|]; [|reflexivity].
  destruct (tabulated (JDict d)); [|discriminate Hd]. exfalso. apply Hn. right. now left.
Qed.
(** Every setting is allowed for its option. *)
Theorem C86_settings_are_allowed include_support discrete data o :
  load_data include_support discrete data = inl o ->
  forall (k : string) (d : decl), dict_get (oc_decls (options_class (tabulated data))) k = Some d -> allowed hierarchy d (erase (read o k)).
Proof.
  intros E k dk Hd. destruct (in_dec string_dec k (map fst (entries (tabulated data) (supported include_support data)))) as [Hi|Hn].
  - apply in_map_iff in Hi as ([k' p] & <- & Hi). cbn [fst] in *. destruct (load_inv _ _ _ _ E) as (d & -> & H). cbv zeta in H.
    destruct H as (H1 & H2 & H3 & H4 & H5 & _). destruct (H5 _ _ Hi) as (v & dd & A & B & C & D).
    unfold read. rewrite B. congruence.
  - assert (V : valid_obj hierarchy (options_class (tabulated data)) decls_of (new_obj [])).
    { destruct (tabulated data).
      - apply (C31_shipped_classes "TabulatedTidalTurbineOptions"). reflexivity.
      - apply (C31_shipped_classes "ConstantTidalTurbineOptions"). reflexivity. }
    destruct (V k dk Hd) as [X _]. unfold getopt, dflt in X. cbn [new_obj o_vals dict_get] in X. rewrite Hd in X.
    rewrite (C86_other_settings_are_defaults _ _ _ _ E _ _ Hd Hn).
    assert (Y : erase (JVal (d_default dk)) = d_default dk \/
                In k (map fst (entries (tabulated data) (supported include_support data)))).
    { clear - Hd. revert Hd. destruct (tabulated data); cbn;
      repeat (match goal with |- context [k =? ?s] => destruct (String.eqb_spec k s) as [-> |] end; [intros [= <-]; cbn; auto 8|]); discriminate. }
    destruct Y as [-> | Y]; [exact X|contradiction].
Qed.

(** The turbine of a farm made from the file: size, support and correction. *)
Theorem C86_turbine_of_the_farm include_support discrete data o t :
  load_data include_support discrete data = inl o -> make_turbine o = inl t ->
  entry data ["diameter"] = Some (tb_diameter t) /\ tb_projected t = tb_diameter t /\
  (if supported include_support data then
     entry data ["support_structure"; "type"] = Some (tb_structure t) /\
     entry data ["support_structure"; "rel_hub_height"] = Some (tb_hub t) /\
     entry data ["support_structure"; "C_support"] = Some (tb_C_support t) /\
     entry data ["support_structure"; "A_support"] = Some (tb_A_support t)
   else tb_structure t = JVal (VStr "bottom-fixed") /\ tb_hub t = JVal VNone /\
        tb_C_support t = JVal (VFloat (Fin 0)) /\ tb_A_support t = JVal (VFloat (Fin 0))) /\
  tb_upwind t = (if discrete then match entry data ["upwind_correction"] with Some v => v | None => JVal (VBool true) end
                 else JVal (VBool false)).
Proof.
  intros E Et. unfold make_turbine in Et. apply bind_inl in Et as [c [Ec Et]]. injection Et as <-.
  cbn [tb_diameter tb_projected tb_structure tb_hub tb_C_support tb_A_support tb_upwind].
  pose proof (C86_settings_are_those_of_the_file _ _ _ _ E) as S0.
  pose proof (C86_other_settings_are_defaults _ _ _ _ E) as D0.
  assert (P : read o "projected_diameter" = JVal VNone).
  { refine (D0 "projected_diameter" (mkDecl TPosFloat true VNone) _ _).
    - now destruct (tabulated data).
    - destruct (tabulated data), (supported include_support data); cbn; intuition discriminate. }
  rewrite P. cbn [truthy]. split; [|split; [reflexivity|split]].
  - apply S0. unfold entries. rewrite !in_app_iff. right. right. now left.
  - destruct (supported include_support data) eqn:Hs.
    + repeat split; apply S0; unfold entries; rewrite !in_app_iff; right; left; cbn [support_entries]; cbn; auto.
    + repeat split;
        match goal with |- read o ?k = _ =>
          refine (D0 k (match dict_get (oc_decls ConstantTidalTurbineOptions_class) k with Some d => d | None => mkDecl TInt false VNone end) _ _)
        end; try (now destruct (tabulated data)); destruct (tabulated data); cbn; intuition discriminate.
  - destruct (load_inv _ _ _ _ E) as (d & Hd & H). cbv zeta in H.
    destruct H as (H1 & H2 & H3 & H4 & H5 & H6 & H7 & H8 & H9). rewrite H2, H6. now destruct discrete.
Qed.

(** A table file makes a farm exactly if its tables have the same length; the turbine then
    has the tables of the file, and power coefficients computed from the thrust only where
    the file has none. *)
Theorem C86_tabulated_turbine include_support discrete data o :
  load_data include_support discrete data = inl o -> tabulated data = true ->
  exists speeds thrust,
    entry data ["curves"; "speeds"] = Some (JList speeds) /\
    entry data ["curves"; "thrust"] = Some (JList thrust) /\
    let power := match entry data ["curves"; "power"] with
                 | Some (JList (p :: ps)) => map Given (p :: ps)
                 | _ => map Computed thrust
                 end in
    (List.length thrust = List.length speeds /\ List.length power = List.length speeds ->
     exists t, make_turbine o = inl t /\ tb_curve t = TabulatedThrust speeds thrust power) /\
    (~ (List.length thrust = List.length speeds /\ List.length power = List.length speeds) ->
     make_turbine o = inr FValueError).
Proof.
  intros E Ht.
  pose proof (C86_settings_are_those_of_the_file _ _ _ _ E) as S0.
  pose proof (C86_settings_are_allowed _ _ _ _ E) as A0. rewrite Ht in *.
  assert (L : forall k p d, In (k, p) (entries true (supported include_support data)) ->
     dict_get (oc_decls (options_class true)) k = Some d -> d_trait d = TList ->
     (exists l, read o k = JList l) \/ (read o k = JVal VNone /\ d_none d = true)).
  { intros k p d Hi Hd Hl. destruct (A0 k d Hd) as [[X Y]|[X Y]].
    - right. split; [|exact Y]. destruct (read o k) as [v| |]; try discriminate X. destruct v; try discriminate X. reflexivity.
    - left. rewrite Hl in Y. cbn in Y. destruct (read o k) as [v|l|]; try discriminate Y; [|now exists l].
      destruct v; discriminate Y. }
  assert (I1 : In ("thrust_speeds", ["curves"; "speeds"]) (entries true (supported include_support data))) by (left; reflexivity).
  assert (I2 : In ("thrust_coefficients", ["curves"; "thrust"]) (entries true (supported include_support data))) by (right; left; reflexivity).
  assert (I3 : In ("power_coefficients", ["curves"; "power"]) (entries true (supported include_support data))) by (right; right; left; reflexivity).
  destruct (L _ _ _ I1 eq_refl eq_refl) as [[speeds Rs]|[_ X]]; [|discriminate X].
  destruct (L _ _ _ I2 eq_refl eq_refl) as [[thrust Rt]|[_ X]]; [|discriminate X].
  exists speeds, thrust. rewrite (S0 _ _ I1), (S0 _ _ I2), (S0 _ _ I3), Rs, Rt. split; [reflexivity|]. split; [reflexivity|].
  cbv zeta.
  assert (Ty : fo_type o =? "constant" = false).
  { destruct (load_inv _ _ _ _ E) as (d & Hd & H). cbv zeta in H. destruct H as (_ & _ & H3 & _). rewrite Ht in H3. now rewrite H3. }
  assert (C : make_curve o =
    let power := match read o "power_coefficients" with JList (p :: ps) => map Given (p :: ps) | _ => map Computed thrust end in
    if negb (Nat.eqb (List.length thrust) (List.length speeds)) then inr FValueError
    else if negb (Nat.eqb (List.length power) (List.length speeds)) then inr FValueError
    else inl (TabulatedThrust speeds thrust power)).
  { unfold make_curve. rewrite Ty, Rs, Rt. cbn [elements bind].
    destruct (L _ _ _ I3 eq_refl eq_refl) as [[pw ->]|[-> _]]; [|reflexivity]. destruct pw; reflexivity. }
  unfold make_turbine. rewrite C. cbv zeta. clear C.
  set (power := match read o "power_coefficients" with JList (p :: ps) => map Given (p :: ps) | _ => map Computed thrust end).
  replace (match read o "power_coefficients" with JVal _ => map Computed thrust | JList [] => map Computed thrust
           | JList (p :: ps) => map Given (p :: ps) | JDict _ => map Computed thrust end) with power by reflexivity.
  split.
  - intros [H1 H2]. apply Nat.eqb_eq in H1, H2. rewrite H1, H2. cbn [negb bind]. eexists. split; [reflexivity|]. reflexivity.
  - intros Hn. destruct (Nat.eqb_spec (List.length thrust) (List.length speeds)) as [H1|]; [|reflexivity].
    destruct (Nat.eqb_spec (List.length power) (List.length speeds)) as [H2|]; [|reflexivity]. tauto.
Qed.

(** A constant-thrust file always makes a farm, with the coefficients of the file. *)
Theorem C86_constant_turbine include_support discrete data o :
  load_data include_support discrete data = inl o -> tabulated data = false ->
  exists t c_t c_p, make_turbine o = inl t /\
    entry data ["thrust_coefficient"] = Some c_t /\ entry data ["power_coefficient"] = Some c_p /\
    tb_curve t = ConstantThrust c_t (if truthy c_p then Given c_p else Computed c_t) /\
    (truthy c_p = true <-> erase c_p <> VNone).
Proof.
  intros E Ht.
  pose proof (C86_settings_are_those_of_the_file _ _ _ _ E) as S0.
  pose proof (C86_settings_are_allowed _ _ _ _ E) as A0. rewrite Ht in *.
  assert (Ty : fo_type o =? "constant" = true).
  { destruct (load_inv _ _ _ _ E) as (d & Hd & H). cbv zeta in H. destruct H as (_ & _ & H3 & _). rewrite Ht in H3. now rewrite H3. }
  unfold make_turbine, make_curve. rewrite Ty. cbn [bind].
  eexists. exists (read o "thrust_coefficient"), (read o "power_coefficient").
  split; [reflexivity|]. split; [apply S0; now left|]. split; [apply S0; right; now left|]. split; [reflexivity|].
  pose proof (A0 "power_coefficient" _ eq_refl) as A. clear - A.
  destruct A as [[X _]|[X Y]].
  - rewrite X. split; [|congruence]. destruct (read o "power_coefficient") as [v| |]; try discriminate X. destruct v; try discriminate X. discriminate.
  - split; [intros _; exact X|intros _]. cbn [d_trait in_domain] in Y. destruct Y as (f & Hf & Hp).
    destruct (read o "power_coefficient") as [v| |]; cbn [erase] in Hf.
    + destruct Hf as [Hf|(z & Hz & ->)].
      * destruct v; try discriminate Hf. injection Hf as ->. destruct Hp as [-> |(q & -> & Hq)]; [reflexivity|].
        cbn [truthy]. destruct (Qceqb_spec q 0) as [->|]; [|reflexivity]. exfalso. exact (Qclt_not_eq _ _ Hq eq_refl).
      * destruct Hp as [Hp|(q & [= <-] & Hq)]; [discriminate|].
        destruct Hz as [Hz|[[Hz ->]|[Hz ->]]].
        -- destruct v; try discriminate Hz. injection Hz as ->. cbn [truthy]. destruct (Z.eqb_spec z 0) as [->|]; [|reflexivity].
           exfalso. exact (Qclt_not_eq _ _ Hq eq_refl).
        -- destruct v; try discriminate Hz. injection Hz as ->. reflexivity.
        -- exfalso. exact (Qclt_not_eq _ _ Hq eq_refl).
    + destruct Hf as [Hf|(z & [Hz|[[Hz _]|[Hz _]]] & _)]; discriminate.
    + destruct Hf as [Hf|(z & [Hz|[[Hz _]|[Hz _]]] & _)]; discriminate.
Qed.

(** Only the listed entries matter: everything else in the file is ignored. *)
Lemma assign_agree data data' l : (forall k p, In (k, p) l -> entry data p = entry data' p) ->
  forall o o', assign o data l = inl o' -> assign o data' l = inl o'.
Proof.
  induction l as [|[k p] r IH]; intros H o o'; cbn [assign]; [easy|].
  intros E. apply bind_inl in E as [v [Ev E]]. apply bind_inl in E as [o1 [E1 E]].
  apply getpath_entry in Ev. rewrite (H k p) in Ev by now left. apply getpath_entry in Ev.
  rewrite Ev. cbn [bind]. rewrite E1. cbn [bind]. apply IH; [|exact E]. intros k' p' Hi. apply (H k' p'). now right.
Qed.
Theorem C86_nothing_else_is_read include_support discrete data d' o :
  (forall p, In p (all_paths (tabulated data) (supported include_support data)) -> entry data p = entry (JDict d') p) ->
  load_data include_support discrete data = inl o -> load_data include_support discrete (JDict d') = inl o.
Proof.
  intros H E. assert (Hd : exists d, data = JDict d) by (destruct (load_inv _ _ _ _ E) as (d & Hd & _); eauto).
  destruct Hd as [d ->]. pose proof (H ["turbine_thrust_def"] (or_introl eq_refl)) as H1.
  pose proof (H ["support_structure"] (or_intror (or_introl eq_refl))) as H2.
  pose proof (H ["upwind_correction"] (or_intror (or_intror (or_introl eq_refl)))) as H3.
  pose proof (H ["name"] (or_intror (or_intror (or_intror (or_introl eq_refl))))) as H4.
  assert (G : forall k, entry (JDict d) [k] = entry (JDict d') [k] -> dict_get d k = dict_get d' k).
  { intros k X. cbn [entry] in X. now destruct (dict_get d k), (dict_get d' k). }
  assert (K : (include_support && has_key (JDict d) "support_structure")%bool = supported include_support (JDict d)).
  { unfold supported. cbn [has_key entry]. destruct include_support; [|reflexivity]. cbn [andb]. now destruct (dict_get d "support_structure"). }
  assert (K' : (include_support && has_key (JDict d') "support_structure")%bool = supported include_support (JDict d)).
  { rewrite <- K. cbn [has_key]. now rewrite (G _ H2). }
  rewrite load_assign in E |- *. cbn [get bind] in *. rewrite <- (G _ H1).
  apply bind_inl in E as [o1 [E1 E]]. rewrite E1. cbn [bind]. apply bind_inl in E as [o2 [E2 E]].
  rewrite K in E2. rewrite K'.
  assert (T : (fo_type o1 =? "table") = tabulated (JDict d)).
  { destruct (set_type_spec _ _ _ E1) as (s & Es & Hs & ->). apply erase_str in Es. cbn [fo_type]. unfold tabulated. cbn [entry].
    destruct (dict_get d "turbine_thrust_def"); [now rewrite Es|now injection Es as <-]. }
  rewrite T in *.
  assert (E2' : assign o1 (JDict d') (entries (tabulated (JDict d)) (supported include_support (JDict d))) = inl o2).
  { revert E2. apply assign_agree. intros k p Hi. apply H. do 4 right. apply in_map_iff. now exists (k, p). }
  rewrite E2'. cbn [bind]. rewrite <- E. unfold finish. cbn [get getitem]. now rewrite (G _ H3), (G _ H4).
Qed.

(** With include_support=False the support structure is as if it were not in the file. *)
Theorem C86_support_can_be_left_out discrete d d' :
  (forall k, k <> "support_structure" -> dict_get d k = dict_get d' k) ->
  load_data false discrete (JDict d) = load_data false discrete (JDict d') /\
  (dict_get d' "support_structure" = None -> load_data true discrete (JDict d') = load_data false discrete (JDict d)).
Proof.
  intros H.
  assert (E : load_data false discrete (JDict d) = load_data false discrete (JDict d')).
  { unfold load_data. cbn [andb get getitem]. rewrite !H by discriminate. reflexivity. }
  split; [exact E|]. intros Hn. rewrite E. unfold load_data. cbn [has_key]. rewrite Hn. reflexivity.
Qed.

(** The format follows the name of the file, and does not matter. *)
Lemma ends_with_iff suffix s : ends_with suffix s = true <-> exists pre, s = pre ++ suffix.
Proof.
  induction s as [|c r IH]; cbn [ends_with]; rewrite orb_true_iff.
  - split.
    + intros [X|X]; [|discriminate]. apply String.eqb_eq in X. now exists "".
    + intros [pre X]. destruct pre as [|a pre]; [|discriminate X]. left. apply String.eqb_eq. exact X.
  - rewrite IH. split.
    + intros [X|[pre X]]; [apply String.eqb_eq in X; now exists ""|]. exists (String c pre). cbn. now rewrite <- X.
    + intros [pre X]. destruct pre as [|a pre]; [left; apply String.eqb_eq; exact X|]. right. exists pre. cbn in X. congruence.
Qed.
Theorem C86_format_follows_the_name yaml json path text include_support discrete :
  let yaml_name := (exists n, path = n ++ ".yaml") \/ (exists n, path = n ++ ".yml") in
  let loaded data := load_turbine yaml json path text include_support discrete = load_data include_support discrete data in
  (yaml_name -> forall data, yaml text = Some data -> loaded data) /\
  (~ yaml_name -> forall data, json text = Some data -> loaded data).
Proof.
  cbv zeta. unfold load_turbine. rewrite <- !ends_with_iff. split.
  - intros Y data Hd. apply orb_true_iff in Y. now rewrite Y, Hd.
  - intros Y data Hd. destruct (_ || _)%bool eqn:X; [apply orb_true_iff in X; contradiction|]. now rewrite Hd.
Qed.

(** ** Cases *)
Definition num (n : Z) (d : positive) : jval := JVal (VFloat (Fin (qq n d))).
(** an abridged examples/discrete_turbines/turbine_files/AR1500.yaml *)
Definition ar1500 : jval := JDict [
  ("name", JVal (VStr "AR1500")); ("turbine_thrust_def", JVal (VStr "table")); ("diameter", num 18 1);
  ("upwind_correction", JVal (VBool true));
  ("support_structure", JDict [("type", JVal (VStr "bottom-fixed")); ("rel_hub_height", num 14 1);
                               ("C_support", num 7 10); ("A_support", num 364 10)]);
  ("curves", JDict [("speeds", JList [num 0 1; num 3 4; num 1 1]);
                    ("power", JList [num 1 100; num 3 100; num 4 10]);
                    ("thrust", JList [num 2 100; num 4 100; num 5 10])])].
Definition constant_file (power : list (string * jval)) : jval := JDict (power ++ [
  ("name", JVal (VStr "disc")); ("diameter", num 20 1); ("thrust_coefficient", num 6 10)])%list.
Definition ragged : jval := JDict [
  ("name", JVal (VStr "x")); ("turbine_thrust_def", JVal (VStr "table")); ("diameter", num 18 1);
  ("curves", JDict [("speeds", JList [num 3 1; num 1 1]); ("power", JVal VNone); ("thrust", JList [num 5 10])])].
Definition reversed : jval := JDict [
  ("name", JVal (VStr "x")); ("turbine_thrust_def", JVal (VStr "table")); ("diameter", num 18 1);
  ("curves", JDict [("speeds", JList [num 3 1; JVal (VStr "two")]); ("power", JVal VNone); ("thrust", JList [num 5 10; num (-1) 1])])].

Example C86_ar1500_example : exists o t, load_data true true ar1500 = inl o /\ make_turbine o = inl t /\
  tb_diameter t = num 18 1 /\ tb_upwind t = JVal (VBool true) /\ tb_C_support t = num 7 10 /\
  tb_curve t = TabulatedThrust [num 0 1; num 3 4; num 1 1] [num 2 100; num 4 100; num 5 10]
                 [Given (num 1 100); Given (num 3 100); Given (num 4 10)].
Proof. eexists. eexists. split; [vm_compute; reflexivity|]. split; [vm_compute; reflexivity|]. repeat split; vm_compute; reflexivity. Qed.

(** power_coefficient is optional in the options, but a file has to name it. *)
Theorem C86_power_may_be_left_out_refuted :
  (exists o t, load_data true true (constant_file [("power_coefficient", JVal VNone)]) = inl o /\ make_turbine o = inl t /\
     tb_curve t = ConstantThrust (num 6 10) (Computed (num 6 10))) /\
  load_data true true (constant_file []) = inr FKeyError /\
  forall include_support discrete data, tabulated data = false -> entry data ["power_coefficient"] = None ->
    forall o, load_data include_support discrete data <> inl o.
Proof.
  split; [eexists; eexists; split; [vm_compute; reflexivity|]; split; vm_compute; reflexivity|]. split; [vm_compute; reflexivity|].
  intros i dc data Ht Hn o E. pose proof (C86_settings_are_those_of_the_file _ _ _ _ E "power_coefficient" ["power_coefficient"]) as X.
  rewrite Ht, Hn in X. discriminate X. right. now left.
Qed.

(** The tables are not looked into: tables of different length are found only when the farm
    is built, decreasing speeds, negative coefficients and text never. *)
Theorem C86_tables_are_checked_refuted :
  (exists o, load_data true true ragged = inl o /\ make_turbine o = inr FValueError) /\
  (exists o t, load_data true true reversed = inl o /\ make_turbine o = inl t).
Proof.
  split; [eexists; split; vm_compute; reflexivity|]. eexists. eexists. split; vm_compute; reflexivity.
Qed.

(** A correction asked for in the file is dropped for a farm that is not discrete. *)
Theorem C86_upwind_is_kept_refuted :
  exists o t, load_data true false ar1500 = inl o /\ make_turbine o = inl t /\
  entry ar1500 ["upwind_correction"] = Some (JVal (VBool true)) /\ tb_upwind t = JVal (VBool false).
Proof. eexists. eexists. split; [vm_compute; reflexivity|]. split; [vm_compute; reflexivity|]. split; reflexivity. Qed.

Print Assumptions C86_loads_exactly_good_files.
Print Assumptions C86_settings_are_those_of_the_file.
Print Assumptions C86_settings_are_allowed.
Print Assumptions C86_tabulated_turbine.
Print Assumptions C86_constant_turbine.
Print Assumptions C86_nothing_else_is_read.

