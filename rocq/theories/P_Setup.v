(** C71: setting up a solver. *)
From Coq Require Import List String Bool Arith Lia.
From Verif Require Import Setup_Model Setup_Spec Setup_Proofs.
Import ListNotations.
Open Scope string_scope.
Open Scope list_scope.

(** For every valid configuration and every orderly history that reaches a call needing
    the solver: no call raises, every component exists, is complete for the configuration
    and belongs to the others, and was built once (the spaces of the 3D solver: at most
    twice). *)
Theorem C71_setup : forall three_d c reg ops,
  valid three_d c -> (forall l, In l (c_tracers c) -> ~ In l reg) ->
  orderly three_d (new c reg) ops -> In Initialize ops \/ In Use ops ->
  smooth three_d (new c reg) ops /\
  let s := run three_d (new c reg) ops in
  initialized s = true /\ wired s /\ complete c s /\
  built KFields s = 1 /\ built KEquations s = 1 /\ built KStepper s = 1 /\ built KExporters s = 1 /\
  (built KSpaces s = 1 \/ (three_d = true /\ built KSpaces s = 2)).
Proof.
  intros td c reg ops V R O U.
  destruct (stage_run td c reg V R ops (new c reg) 0 (Stage0 td c reg) O) as [Sm [n [St [_ I]]]].
  split; [exact Sm |]. cbv zeta. specialize (I U).
  split; [exact I |]. eapply stage_done; eassumption.
Qed.

(** a 2D configuration with two tracers, and a 3D one *)
Definition ex2 : cfg := mkCfg 7 true true true ["salt_2d"; "temp_2d"] false false false true true false true false true true.
Definition ex3 : cfg := mkCfg 8 true true true [] false false false true true false true true true true.
Example C71_setup_valid : valid false ex2 /\ valid true ex3.
Proof.
  split; unfold valid; cbn; repeat split; try discriminate; auto; try (intros H; contradiction).
  constructor; [intros [A|[]]; discriminate | constructor; [intros [] | constructor]].
Qed.
Example C71_setup_orderly : orderly false (new ex2 ["elev_2d"]) [Create KSpaces; Create KStepper; Use; Initialize; Use]
  /\ orderly true (new ex3 []) [Create KEquations; Use].
Proof. cbn. auto 10. Qed.
Example C71_setup_example :
  map f_labels (match fields (run false (new ex2 ["elev_2d"]) [Use]) with Some f => [f] | None => [] end)
    = [["salt_2d"; "temp_2d"]]
  /\ map e_parts (match eqs (run false (new ex2 ["elev_2d"]) [Use]) with Some e => [e] | None => [] end)
    = [[Sw; Tr "salt_2d"; Tr "temp_2d"]]
  /\ journal (run false (new ex2 ["elev_2d"]) [Use]) = [KSpaces; KFields; KEquations; KStepper; KExporters].
Proof. repeat split. Qed.

(** The 3D solver builds its function spaces again with the fields: spaces a user got from
    create_function_spaces are not those of the fields. *)
Theorem C71_3d_spaces_built_twice : forall c reg, valid true c ->
  let s1 := run true (new c reg) [Create KSpaces] in
  let s := run true (new c reg) [Create KSpaces; Use] in
  initialized s = true /\ built KSpaces s = 2 /\
  exists i j c1 c2 f, spaces s1 = Some (i, c1) /\ spaces s = Some (j, c2) /\ i <> j /\
    fields s = Some f /\ f_spaces f = j.
Proof.
  intros c reg V. unfold valid in V. destruct V as [H1 [H2 [H3 [H4 [H5 _]]]]]. specialize (H5 eq_refl).
  cbv zeta. unfold run. cbn [fold_left].
  assert (E1 : step true (new c reg) (Create KSpaces) = Ok (put_spaces (new c reg)))
    by (cbn; unfold create_function_spaces; cbn; rewrite H1; reflexivity).
  rewrite E1. cbn [final].
  assert (E2 : create_equations true (put_spaces (new c reg)) =
    Ok (mkSt c (Some (1, c)) (Some (mkFields 2 1 c [] true)) (Some (mkEqs 3 2 c [Sw] true)) None None false 4
          [KSpaces; KSpaces; KFields; KEquations] reg)).
  { unfold create_equations, create_fields, create_function_spaces, bind. cbn. rewrite H1. cbn.
    rewrite H2. cbn. rewrite H5. cbn. reflexivity. }
  assert (E3 : create_timestepper true (mkSt c (Some (1, c)) (Some (mkFields 2 1 c [] true)) (Some (mkEqs 3 2 c [Sw] true)) None None false 4
          [KSpaces; KSpaces; KFields; KEquations] reg) =
     Ok (mkSt c (Some (1, c)) (Some (mkFields 2 1 c [] true)) (Some (mkEqs 3 2 c [Sw] true)) (Some (mkStepper 4 3 2 c true)) None false 5
          [KSpaces; KSpaces; KFields; KEquations; KStepper] reg)).
  { unfold create_timestepper, bind. cbn. rewrite H3. reflexivity. }
  assert (E4 : exists x, create_exporters true (mkSt c (Some (1, c)) (Some (mkFields 2 1 c [] true)) (Some (mkEqs 3 2 c [Sw] true)) (Some (mkStepper 4 3 2 c true)) None false 5
          [KSpaces; KSpaces; KFields; KEquations; KStepper] reg) =
     Ok (mkSt c (Some (1, c)) (Some (mkFields 2 1 c [] true)) (Some (mkEqs 3 2 c [Sw] true)) (Some (mkStepper 4 3 2 c true)) (Some x) false 6
          [KSpaces; KSpaces; KFields; KEquations; KStepper; KExporters] reg)).
  { unfold create_exporters, bind. cbn. destruct (c_no_exports c).
    - eexists; reflexivity.
    - destruct (H4 eq_refl) as [-> ->]. eexists; reflexivity. }
  destruct E4 as [x E4].
  assert (E : step true (put_spaces (new c reg)) Use =
     Ok (mkSt c (Some (1, c)) (Some (mkFields 2 1 c [] true)) (Some (mkEqs 3 2 c [Sw] true)) (Some (mkStepper 4 3 2 c true)) (Some x) true 6
          [KSpaces; KSpaces; KFields; KEquations; KStepper; KExporters] reg)).
  { unfold step, initialize. cbn [initialized put_spaces new spaces bind eqs]. fold (put_spaces (new c reg)).
    rewrite E2. cbn [bind stepper]. rewrite E3. cbn [bind exporters]. rewrite E4. reflexivity. }
  rewrite E. cbn [final]. split; [reflexivity |]. split; [reflexivity |].
  do 5 eexists. cbn. repeat split; try reflexivity. discriminate.
Qed.
Example C71_3d_spaces_built_twice_valid : valid true ex3.
Proof. apply C71_setup_valid. Qed.

(** ** After any history *)

(** the methods never take a component away *)
Definition grows (s s' : st) : Prop := forall k, exists_ k s = true -> exists_ k s' = true.
Lemma grows_refl : forall s, grows s s. Proof. intros s k H; exact H. Qed.
Lemma grows_trans : forall a b d, grows a b -> grows b d -> grows a d.
Proof. intros a b d H1 H2 k H. apply H2, H1, H. Qed.
Lemma put_grows : forall s,
  grows s (put_spaces s) /\ (forall f, grows s (put_fields s f)) /\ (forall e, grows s (put_eqs s e)) /\
  (forall t, grows s (put_stepper s t)) /\ (forall x, grows s (put_exporters s x)) /\
  (forall k, grows s (note s k)) /\ (forall l, grows s (register s l)) /\ grows s (set_initialized s) /\
  (forall c, grows s (configure c s)).
Proof. intros s. repeat split; intros; intros kk; destruct kk; cbn; auto. Qed.
Lemma bind_final : forall (P : st -> st -> Prop) s r f,
  (forall a b d, P a b -> P b d -> P a d) ->
  P s (final r) -> (forall a, P s a -> P a (final (f a))) -> P s (final (bind r f)).
Proof.
  intros P s [a|e a] f Ht H Hf; cbn in *; [| exact H]. eapply Ht; [exact H | apply Hf, H].
Qed.

Lemma settled_step : forall td s o, (forall k, k <> KFields -> exists_ k s = true) -> initialized s = true ->
  match o with Create _ => False | _ => True end ->
  let s' := final (step td s o) in
  initialized s' = true /\ spaces s' = spaces s /\ fields s' = fields s /\ eqs s' = eqs s /\
  stepper s' = stepper s /\ exporters s' = exporters s.
Proof.
  intros td s o Hk Hi Ho. destruct o as [k| | |c]; [contradiction | | |].
  - unfold step, initialize.
    pose proof (Hk KSpaces ltac:(discriminate)) as A1. pose proof (Hk KEquations ltac:(discriminate)) as A2.
    pose proof (Hk KStepper ltac:(discriminate)) as A3. pose proof (Hk KExporters ltac:(discriminate)) as A4.
    cbn [exists_] in *.
    destruct (spaces s) eqn:B1; [| discriminate]. cbn [bind].
    destruct (eqs s) eqn:B2; [| discriminate]. cbn [bind].
    destruct (stepper s) eqn:B3; [| discriminate]. cbn [bind].
    destruct (exporters s) eqn:B4; [| discriminate]. cbn. rewrite B1, B2, B3, B4. auto 10.
  - cbn [step]. rewrite Hi. cbn. auto 10.
  - cbn. auto 10.
Qed.

(** what exists when a method ends without an exception *)
Lemma spaces_exist : forall s s', create_function_spaces s = Ok s' ->
  exists_ KSpaces s' = true /\ initialized s' = initialized s.
Proof. intros s s' H. unfold create_function_spaces in H. destruct (c_spaces_ok (conf s)); [| discriminate]. injection H as <-. auto. Qed.

Ltac break H := repeat match type of H with
  | context [match ?x with _ => _ end] => destruct x eqn:?; cbn [bind] in H; try discriminate H
  | context [if ?x then _ else _] => destruct x eqn:?; cbn [bind] in H; try discriminate H
  end.

(** [keeps s s']: nothing is taken away and the flag is unchanged *)
Definition keeps (s s' : st) : Prop := grows s s' /\ initialized s' = initialized s.
Lemma keeps_refl : forall s, keeps s s. Proof. intros s; split; [apply grows_refl | reflexivity]. Qed.
Lemma keeps_trans : forall a b d, keeps a b -> keeps b d -> keeps a d.
Proof. intros a b d [H1 E1] [H2 E2]. split; [eapply grows_trans; eauto | congruence]. Qed.
Lemma keeps_put : forall s,
  keeps s (put_spaces s) /\ (forall f, keeps s (put_fields s f)) /\ (forall e, keeps s (put_eqs s e)) /\
  (forall t, keeps s (put_stepper s t)) /\ (forall x, keeps s (put_exporters s x)) /\
  (forall k, keeps s (note s k)) /\ (forall l, keeps s (register s l)).
Proof. intros s. repeat split; intros; try (intros kk; destruct kk); cbn; auto. Qed.

Lemma keeps_spaces : forall s, keeps s (final (create_function_spaces s)).
Proof. intros s. unfold create_function_spaces. destruct (c_spaces_ok (conf s)); cbn; [apply keeps_put | apply keeps_refl]. Qed.
Lemma keeps_tracers : forall ls s, keeps s (final (add_tracers ls s)).
Proof.
  induction ls as [|l ls IH]; intros s; cbn [add_tracers]; [apply keeps_refl |].
  destruct (memb l (registry s)); [apply keeps_refl |].
  cbn. destruct (fields s) as [f|] eqn:Ef; cbn.
  - eapply keeps_trans; [| apply IH]. split; [intros kk; destruct kk; cbn; auto | reflexivity].
  - split; [intros kk; destruct kk; cbn; auto | reflexivity].
Qed.
Lemma keeps_complete : forall s, keeps s (fields_complete s).
Proof. intros s. unfold fields_complete. destruct (fields s); [apply keeps_put | apply keeps_refl]. Qed.
Lemma keeps_part : forall p s, keeps s (add_part p s).
Proof. intros p s. unfold add_part. destruct (eqs s); [apply keeps_put | apply keeps_refl]. Qed.
Lemma keeps_eqs_complete : forall s, keeps s (eqs_complete s).
Proof. intros s. unfold eqs_complete. destruct (eqs s); [apply keeps_put | apply keeps_refl]. Qed.
Lemma keeps_manager : forall k s, keeps s (add_manager k s).
Proof. intros p s. unfold add_manager. destruct (exporters s); [apply keeps_put | apply keeps_refl]. Qed.

Lemma keeps_fields : forall td s, keeps s (final (create_fields td s)).
Proof.
  intros td s. unfold create_fields. apply (bind_final keeps); [exact keeps_trans | |].
  - destruct td; [apply keeps_spaces |]. destruct (spaces s); [apply keeps_refl | apply keeps_spaces].
  - intros a _. destruct (negb (c_early_ok (conf a))); [apply keeps_refl |]. cbv zeta.
    set (b := note (put_fields a (mkFields (next a) (cur_spaces a) (conf a) [] false)) KFields).
    assert (Kb : keeps a b) by (split; [intros kk; destruct kk; cbn; auto | reflexivity]).
    eapply keeps_trans; [exact Kb |]. destruct td.
    + destruct (c_late_ok (conf b)); [apply keeps_complete | apply keeps_refl].
    + apply (bind_final keeps); [exact keeps_trans | apply keeps_tracers |]. intros d _. apply keeps_complete.
Qed.
Lemma keeps_tracer_eqs : forall ls s, keeps s (final (add_tracer_eqs ls s)).
Proof.
  induction ls as [|l ls IH]; intros s; cbn [add_tracer_eqs]; [apply keeps_refl |].
  destruct (fields s) as [f|]; [| apply keeps_refl].
  destruct (memb l (f_labels f)); [| apply keeps_refl].
  eapply keeps_trans; [apply keeps_part | apply IH].
Qed.
Lemma keeps_equations : forall td s, keeps s (final (create_equations td s)).
Proof.
  intros td s. unfold create_equations. apply (bind_final keeps); [exact keeps_trans | |].
  - destruct (fields s); [apply keeps_refl | apply keeps_fields].
  - intros a _. cbv zeta.
    set (b := note (put_eqs a (mkEqs (next a) (cur_fields a) (conf a) [] false)) KEquations).
    assert (Kb : keeps a b) by (split; [intros kk; destruct kk; cbn; auto | reflexivity]).
    eapply keeps_trans; [exact Kb |]. destruct td.
    + destruct (fields b) as [f|]; [| apply keeps_refl].
      destruct (f_done f); [| apply keeps_refl]. cbn [final].
      eapply keeps_trans; [apply keeps_part | apply keeps_eqs_complete].
    + destruct (negb (c_farms_ok (conf b))); [apply keeps_refl |].
      apply (bind_final keeps); [exact keeps_trans | |].
      * eapply keeps_trans; [apply keeps_part | apply keeps_tracer_eqs].
      * intros d _.
        assert (K1 : keeps d (if c_susp (conf d) then add_part Sed d else d))
          by (destruct (c_susp (conf d)); [apply keeps_part | apply keeps_refl]).
        cbv zeta. set (d1 := if c_susp (conf d) then add_part Sed d else d) in *.
        destruct (c_exner (conf d1) && negb (c_bathy_cg (conf d1))); [exact K1 |].
        assert (K2 : keeps d1 (if c_exner (conf d1) then add_part Exn d1 else d1))
          by (destruct (c_exner (conf d1)); [apply keeps_part | apply keeps_refl]).
        set (d2 := if c_exner (conf d1) then add_part Exn d1 else d1) in *.
        assert (K3 : keeps d2 (if c_nonhydro (conf d2) then add_part Fs d2 else d2))
          by (destruct (c_nonhydro (conf d2)); [apply keeps_part | apply keeps_refl]).
        cbn [final]. eapply keeps_trans; [exact K1 |]. eapply keeps_trans; [exact K2 |].
        eapply keeps_trans; [exact K3 |]. apply keeps_eqs_complete.
Qed.
Lemma keeps_stepper : forall td s, keeps s (final (create_timestepper td s)).
Proof.
  intros td s. unfold create_timestepper. apply (bind_final keeps); [exact keeps_trans | |].
  - destruct (eqs s); [apply keeps_refl | apply keeps_equations].
  - intros a _. destruct td.
    + destruct (has_parts [Sw] a); [| apply keeps_refl]. cbv zeta.
      set (b := note (put_stepper a (mkStepper (next a) (cur_eqs a) (cur_fields a) (conf a) false)) KStepper).
      assert (Kb : keeps a b) by (split; [intros kk; destruct kk; cbn; auto | reflexivity]).
      eapply keeps_trans; [exact Kb |].
      destruct (c_dt_ok (conf b)); [| apply keeps_refl].
      destruct (stepper b); [apply keeps_put | apply keeps_refl].
    + destruct (negb (c_dt_ok (conf a))); [apply keeps_refl |].
      destruct (needed (conf a)) as [ps|]; [| apply keeps_refl].
      destruct (has_parts ps a && has_fields (conf a) a); [| apply keeps_refl].
      cbn [final]. split; [intros kk; destruct kk; cbn; auto | reflexivity].
Qed.
Lemma keeps_exporters : forall td s, keeps s (final (create_exporters td s)).
Proof.
  intros td s. unfold create_exporters. apply (bind_final keeps); [exact keeps_trans | |].
  - destruct (stepper s); [apply keeps_refl | apply keeps_stepper].
  - intros a _. cbv zeta.
    set (b := note (put_exporters a (mkExporters (next a) (cur_fields a) (conf a) [])) KExporters).
    assert (Kb : keeps a b) by (split; [intros kk; destruct kk; cbn; auto | reflexivity]).
    eapply keeps_trans; [exact Kb |].
    destruct (c_no_exports (conf b)); [apply keeps_refl |].
    destruct (negb (c_vtk_ok (conf b))); [apply keeps_refl |].
    destruct (negb (c_exports_ok (conf (add_manager "vtk" b)))); cbn [final].
    + apply keeps_manager.
    + eapply keeps_trans; apply keeps_manager.
Qed.

(** a successful creation method leaves the component, and a solver that has spaces,
    equations, stepper and exporters has fields *)
Lemma fields_exist : forall td s s', create_fields td s = Ok s' -> exists_ KFields s' = true.
Proof.
  intros td s s' H. unfold create_fields in H.
  destruct (if td then create_function_spaces s
            else match spaces s with None => create_function_spaces s | Some _ => Ok s end) as [a|e a]; [| discriminate].
  cbn [bind] in H. destruct (negb (c_early_ok (conf a))); [discriminate |]. cbv zeta in H.
  set (b := note (put_fields a (mkFields (next a) (cur_spaces a) (conf a) [] false)) KFields) in *.
  assert (Kb : exists_ KFields b = true) by reflexivity.
  destruct td.
  - destruct (c_late_ok (conf b)); [| discriminate]. injection H as <-. apply keeps_complete, Kb.
  - pose proof (keeps_tracers (c_tracers (conf b)) b) as K.
    destruct (add_tracers (c_tracers (conf b)) b) as [d|e d]; [| discriminate].
    cbn [bind final] in *. injection H as <-. apply keeps_complete, K, Kb.
Qed.
Lemma equations_exist : forall td s s', create_equations td s = Ok s' ->
  exists_ KFields s' = true /\ exists_ KEquations s' = true.
Proof.
  intros td s s' H. pose proof (keeps_equations td s) as K0. rewrite H in K0. cbn [final] in K0.
  unfold create_equations in H.
  assert (A : exists a, (match fields s with None => create_fields td s | Some _ => Ok s end) = Ok a /\ exists_ KFields a = true).
  { destruct (fields s) as [f|] eqn:Ef.
    - exists s. cbn. rewrite Ef. auto.
    - destruct (create_fields td s) as [a|e a] eqn:E; [| discriminate]. exists a. split; [reflexivity |].
      apply (fields_exist td s a E). }
  destruct A as [a [Ea Fa]]. rewrite Ea in H. cbn [bind] in H. cbv zeta in H.
  set (b := note (put_eqs a (mkEqs (next a) (cur_fields a) (conf a) [] false)) KEquations) in *.
  assert (Kab : keeps a b) by (split; [intros kk; destruct kk; cbn; auto | reflexivity]).
  assert (Kbs : keeps b s').
  { destruct td.
    - destruct (fields b) as [f|]; [| discriminate]. destruct (f_done f); [| discriminate]. injection H as <-.
      eapply keeps_trans; [apply keeps_part | apply keeps_eqs_complete].
    - destruct (negb (c_farms_ok (conf b))); [discriminate |].
      pose proof (keeps_tracer_eqs (c_tracers (conf b)) (add_part Sw b)) as K.
      destruct (add_tracer_eqs (c_tracers (conf b)) (add_part Sw b)) as [d|e d]; [| discriminate].
      cbn [bind final] in *. cbv zeta in H.
      eapply keeps_trans; [apply keeps_part |]. eapply keeps_trans; [exact K |].
      assert (K1 : keeps d (if c_susp (conf d) then add_part Sed d else d))
        by (destruct (c_susp (conf d)); [apply keeps_part | apply keeps_refl]).
      set (d1 := if c_susp (conf d) then add_part Sed d else d) in *.
      destruct (c_exner (conf d1) && negb (c_bathy_cg (conf d1))); [discriminate |].
      assert (K2 : keeps d1 (if c_exner (conf d1) then add_part Exn d1 else d1))
        by (destruct (c_exner (conf d1)); [apply keeps_part | apply keeps_refl]).
      set (d2 := if c_exner (conf d1) then add_part Exn d1 else d1) in *.
      assert (K3 : keeps d2 (if c_nonhydro (conf d2) then add_part Fs d2 else d2))
        by (destruct (c_nonhydro (conf d2)); [apply keeps_part | apply keeps_refl]).
      injection H as <-. eapply keeps_trans; [exact K1 |]. eapply keeps_trans; [exact K2 |].
      eapply keeps_trans; [exact K3 |]. apply keeps_eqs_complete. }
  split; [apply Kbs, Kab, Fa | apply Kbs; reflexivity].
Qed.

Lemma stepper_exist : forall td s s', create_timestepper td s = Ok s' -> exists_ KStepper s' = true.
Proof.
  intros td s s' H. unfold create_timestepper in H.
  destruct (match eqs s with None => create_equations td s | Some _ => Ok s end) as [a|e a]; [| discriminate].
  cbn [bind] in H. destruct td.
  - destruct (has_parts [Sw] a); [| discriminate]. cbv zeta in H.
    set (b := note (put_stepper a (mkStepper (next a) (cur_eqs a) (cur_fields a) (conf a) false)) KStepper) in *.
    destruct (c_dt_ok (conf b)); [| discriminate].
    destruct (stepper b) eqn:Eb; [| discriminate Eb]. injection H as <-. reflexivity.
  - destruct (negb (c_dt_ok (conf a))); [discriminate |].
    destruct (needed (conf a)) as [ps|]; [| discriminate].
    destruct (has_parts ps a && has_fields (conf a) a); [| discriminate]. injection H as <-. reflexivity.
Qed.
Lemma exporters_exist : forall td s s', create_exporters td s = Ok s' -> exists_ KExporters s' = true.
Proof.
  intros td s s' H. unfold create_exporters in H.
  destruct (match stepper s with None => create_timestepper td s | Some _ => Ok s end) as [a|e a]; [| discriminate].
  cbn [bind] in H. cbv zeta in H.
  set (b := note (put_exporters a (mkExporters (next a) (cur_fields a) (conf a) [])) KExporters) in *.
  assert (Kb : exists_ KExporters b = true) by reflexivity.
  destruct (c_no_exports (conf b)); [injection H as <-; exact Kb |].
  destruct (negb (c_vtk_ok (conf b))); [discriminate |].
  destruct (negb (c_exports_ok (conf (add_manager "vtk" b)))); [discriminate |].
  injection H as <-. apply keeps_manager, keeps_manager, Kb.
Qed.

(** [initialize]: exceptions keep the flag; success sets it and everything exists *)
Lemma initialize_exist : forall td s,
  match initialize td s with
  | Ok s' => forall k, k <> KFields -> exists_ k s' = true
  | Raise _ s' => initialized s' = initialized s
  end.
Proof.
  intros td s. unfold initialize.
  pose proof (keeps_spaces s) as K1. pose proof (spaces_exist s) as X1.
  assert (A1 : match (match spaces s with None => create_function_spaces s | Some _ => Ok s end) with
               | Ok a => keeps s a /\ exists_ KSpaces a = true | Raise _ a => keeps s a end).
  { destruct (spaces s) eqn:E; [split; [apply keeps_refl | cbn; rewrite E; reflexivity] |].
    destruct (create_function_spaces s); cbn in *; [split; [exact K1 | apply X1; reflexivity] | exact K1]. }
  destruct (match spaces s with None => create_function_spaces s | Some _ => Ok s end) as [a|e a]; cbn [bind]; [| apply A1].
  destruct A1 as [Ka Xa].
  assert (A2 : match (match eqs a with None => create_equations td a | Some _ => Ok a end) with
               | Ok b => keeps a b /\ exists_ KEquations b = true | Raise _ b => keeps a b end).
  { destruct (eqs a) eqn:E; [split; [apply keeps_refl | cbn; rewrite E; reflexivity] |].
    pose proof (keeps_equations td a) as K2. pose proof (equations_exist td a) as X2.
    destruct (create_equations td a); cbn in *; [split; [exact K2 | apply X2; reflexivity] | exact K2]. }
  destruct (match eqs a with None => create_equations td a | Some _ => Ok a end) as [b|e b]; cbn [bind];
    [| rewrite (proj2 A2); apply Ka].
  destruct A2 as [Kb Xb].
  assert (A3 : match (match stepper b with None => create_timestepper td b | Some _ => Ok b end) with
               | Ok d => keeps b d /\ exists_ KStepper d = true | Raise _ d => keeps b d end).
  { destruct (stepper b) eqn:E; [split; [apply keeps_refl | cbn; rewrite E; reflexivity] |].
    pose proof (keeps_stepper td b) as K3. pose proof (stepper_exist td b) as X3.
    destruct (create_timestepper td b); cbn in *; [split; [exact K3 | apply X3; reflexivity] | exact K3]. }
  destruct (match stepper b with None => create_timestepper td b | Some _ => Ok b end) as [d|e d]; cbn [bind];
    [| rewrite (proj2 A3), (proj2 Kb); apply Ka].
  destruct A3 as [Kd Xd].
  assert (A4 : match (match exporters d with None => create_exporters td d | Some _ => Ok d end) with
               | Ok g => keeps d g /\ exists_ KExporters g = true | Raise _ g => keeps d g end).
  { destruct (exporters d) eqn:E; [split; [apply keeps_refl | cbn; rewrite E; reflexivity] |].
    pose proof (keeps_exporters td d) as K4. pose proof (exporters_exist td d) as X4.
    destruct (create_exporters td d); cbn in *; [split; [exact K4 | apply X4; reflexivity] | exact K4]. }
  destruct (match exporters d with None => create_exporters td d | Some _ => Ok d end) as [g|e g]; cbn [bind];
    [| rewrite (proj2 A4), (proj2 Kd), (proj2 Kb); apply Ka].
  destruct A4 as [Kg Xg].
  assert (Hg : forall k, exists_ k g = true -> exists_ k (set_initialized g) = true)
    by (intros kk; destruct kk; cbn; auto).
  destruct Kg as [Gg _], Kd as [Gd _], Kb as [Gb _]. unfold grows in *.
  intros k Hk. apply Hg. destruct k; auto 6; contradiction.
Qed.

Lemma initialized_exist : forall td ops s,
  (initialized s = true -> forall k, k <> KFields -> exists_ k s = true) ->
  initialized (run td s ops) = true -> forall k, k <> KFields -> exists_ k (run td s ops) = true.
Proof.
  intros td ops. induction ops as [|o ops IH]; intros s H; [exact H |].
  unfold run in *. cbn [fold_left]. apply IH. clear IH.
  assert (Kk : forall a, keeps s a -> initialized a = true -> forall k, k <> KFields -> exists_ k a = true).
  { intros a [G E] Hi k Hk. apply G, H; [congruence | exact Hk]. }
  destruct o as [k| | |c].
  - destruct k; cbn [step]; apply Kk.
    + apply keeps_spaces. + apply keeps_fields. + apply keeps_equations. + apply keeps_stepper. + apply keeps_exporters.
  - cbn [step]. pose proof (initialize_exist td s) as X. pose proof H as H'.
    destruct (initialize td s) as [a|e a] eqn:E; cbn [final].
    + intros _. exact X.
    + intros Hi k Hk. assert (Hs : initialized s = true) by congruence.
      exfalso. unfold initialize in E.
      pose proof (H' Hs KSpaces ltac:(discriminate)) as Y1. pose proof (H' Hs KEquations ltac:(discriminate)) as Y2.
      pose proof (H' Hs KStepper ltac:(discriminate)) as Y3. pose proof (H' Hs KExporters ltac:(discriminate)) as Y4.
      cbn [exists_] in *.
      destruct (spaces s); [| discriminate]. cbn [bind] in E.
      destruct (eqs s); [| discriminate]. cbn [bind] in E.
      destruct (stepper s); [| discriminate]. cbn [bind] in E.
      destruct (exporters s); discriminate.
  - cbn [step]. destruct (initialized s) eqn:Ei; [cbn [final]; intros _; apply H; reflexivity |].
    pose proof (initialize_exist td s) as X.
    destruct (initialize td s) as [a|e a] eqn:E; cbn [final]; [intros _; exact X |].
    intros Hi. congruence.
  - cbn. exact H.
Qed.

(** Once a solver has been initialised, whatever happened before, only an explicit creation
    method can change its components: options and boundary conditions set later have no
    effect on what was built. *)
Theorem C71_late_configuration : forall three_d c reg ops1 ops2,
  let s := run three_d (new c reg) ops1 in
  initialized s = true -> (forall k, ~ In (Create k) ops2) ->
  let s' := run three_d s ops2 in
  initialized s' = true /\ spaces s' = spaces s /\ fields s' = fields s /\ eqs s' = eqs s /\
  stepper s' = stepper s /\ exporters s' = exporters s.
Proof.
  intros td c reg ops1 ops2. cbv zeta.
  assert (X : initialized (run td (new c reg) ops1) = true ->
              forall k, k <> KFields -> exists_ k (run td (new c reg) ops1) = true)
    by (apply initialized_exist; discriminate).
  intros Hi. specialize (X Hi). revert X Hi. generalize (run td (new c reg) ops1). clear ops1.
  induction ops2 as [|o ops IH]; intros s X Hi Hn; [auto 10 |].
  assert (Ho : match o with Create _ => False | _ => True end)
    by (destruct o; auto; apply (Hn k); left; reflexivity).
  pose proof (settled_step td s o X Hi Ho) as [I1 [E1 [E2 [E3 [E4 E5]]]]].
  unfold run in *. cbn [fold_left].
  destruct (IH (final (step td s o))) as [J [F1 [F2 [F3 [F4 F5]]]]].
  - intros k Hk. specialize (X k Hk). destruct k; cbn [exists_] in *; try contradiction; rewrite ?E1, ?E3, ?E4, ?E5; exact X.
  - exact I1.
  - intros k Hk. apply (Hn k). right. exact Hk.
  - split; [exact J |]. repeat split; congruence.
Qed.
Example C71_late_configuration_case :
  let c' := mkCfg 9 true true true ["salt_2d"] false false false true true false true false true true in
  let s := run false (new ex2 []) [Initialize] in
  initialized s = true /\
  match stepper (run false s [Configure c'; Use]) with Some t => c_tag (s_cfg t) | None => 0 end = 7.
Proof. split; reflexivity. Qed.
