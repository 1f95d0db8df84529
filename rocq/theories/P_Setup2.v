(** C71, continued: what a failed set-up leaves behind. *)
From Coq Require Import List String Bool Arith Lia.
From Verif Require Import Setup_Model Setup_Spec Setup_Proofs P_Setup.
Import ListNotations.
Open Scope string_scope.
Open Scope list_scope.

(** An unsupported element family leaves nothing behind: after correcting the options the
    solver is the one a fresh set-up gives. *)
Theorem C71_retry_family : forall three_d c0 c reg,
  c_spaces_ok c0 = false ->
  (exists s, step three_d (new c0 reg) Initialize = Raise EFamily s) /\
  run three_d (new c0 reg) [Initialize; Configure c; Initialize] = run three_d (new c reg) [Initialize].
Proof.
  intros td c0 c reg H.
  assert (E : step td (new c0 reg) Initialize = Raise EFamily (new c0 reg))
    by (unfold step, initialize, create_function_spaces; cbn; rewrite H; reflexivity).
  split; [exists (new c0 reg); exact E |].
  unfold run. cbn [fold_left]. rewrite E. reflexivity.
Qed.

(** The configuration [c] with one check failing. *)
Definition bad_dt (c : cfg) : cfg :=
  mkCfg (c_tag c) (c_spaces_ok c) (c_early_ok c) (c_late_ok c) (c_tracers c) (c_tracer_only c)
        (c_susp c) (c_exner c) (c_bathy_cg c) (c_farms_ok c) (c_nonhydro c) false
        (c_no_exports c) (c_vtk_ok c) (c_exports_ok c).
Definition bad_farms (c : cfg) : cfg :=
  mkCfg (c_tag c) (c_spaces_ok c) (c_early_ok c) (c_late_ok c) (c_tracers c) (c_tracer_only c)
        (c_susp c) (c_exner c) (c_bathy_cg c) false (c_nonhydro c) (c_dt_ok c)
        (c_no_exports c) (c_vtk_ok c) (c_exports_ok c).
Definition bad_vtk (c : cfg) : cfg :=
  mkCfg (c_tag c) (c_spaces_ok c) (c_early_ok c) (c_late_ok c) (c_tracers c) (c_tracer_only c)
        (c_susp c) (c_exner c) (c_bathy_cg c) (c_farms_ok c) (c_nonhydro c) (c_dt_ok c)
        false false (c_exports_ok c).
Definition bad_hdf5 (c : cfg) : cfg :=
  mkCfg (c_tag c) (c_spaces_ok c) (c_early_ok c) (c_late_ok c) (c_tracers c) (c_tracer_only c)
        (c_susp c) (c_exner c) (c_bathy_cg c) (c_farms_ok c) (c_nonhydro c) (c_dt_ok c)
        false true false.

(** ready to run: initialised, the components belong together, are complete, and write *)
Definition ready (s : st) : Prop :=
  initialized s = true /\ wired s /\
  (exists f, fields s = Some f /\ f_done f = true) /\ (exists e, eqs s = Some e /\ e_done e = true) /\
  (exists t, stepper s = Some t /\ s_dt t = true) /\
  (exists x, exporters s = Some x /\ x_managers x = if c_no_exports (conf s) then [] else ["vtk"; "hdf5"]).

(** the states when the fields and when the equations have been created *)
Definition spaces_n (td : bool) := if td then 1 else 0.
Definition fields_n (td : bool) := S (spaces_n td).
Definition eqs_n (td : bool) := S (fields_n td).
Definition spaces_fields (td : bool) (reg : list string) (c : cfg) : st :=
  mkSt c (Some (spaces_n td, c)) (Some (mkFields (fields_n td) (spaces_n td) c (labels_of td c) true))
       None None None false (eqs_n td)
       ((if td then [KSpaces; KSpaces] else [KSpaces]) ++ [KFields]) (reg ++ labels_of td c).
Definition at_eqs (td : bool) (reg : list string) (c : cfg) : st :=
  mkSt c (Some (spaces_n td, c)) (Some (mkFields (fields_n td) (spaces_n td) c (labels_of td c) true))
       (Some (mkEqs (eqs_n td) (fields_n td) c (parts_of td c) true)) None None false (S (eqs_n td))
       ((if td then [KSpaces; KSpaces] else [KSpaces]) ++ [KFields; KEquations]) (reg ++ labels_of td c).

(** the checks up to the fields, and up to the equations *)
Definition fields_valid (td : bool) (c : cfg) (reg : list string) : Prop :=
  c_spaces_ok c = true /\ c_early_ok c = true /\ (td = true -> c_late_ok c = true) /\
  (td = false -> NoDup (c_tracers c)) /\ (forall l, In l (c_tracers c) -> ~ In l reg).
Definition eqs_valid (td : bool) (c : cfg) : Prop :=
  td = false -> c_farms_ok c = true /\ (c_exner c = true -> c_bathy_cg c = true).
Lemma valid_parts : forall td c reg, valid td c -> (forall l, In l (c_tracers c) -> ~ In l reg) ->
  fields_valid td c reg /\ eqs_valid td c.
Proof.
  intros td c reg [H1 [H2 [_ [_ [H3 H4]]]]] R. unfold fields_valid, eqs_valid.
  split; [split; [exact H1 |]; split; [exact H2 |]; split; [exact H3 |]; split; [| exact R] |];
    intros E; destruct (H4 E) as [A [B [D _]]]; auto.
Qed.

Lemma to_fields : forall td c reg, fields_valid td c reg ->
  create_function_spaces (new c reg) = Ok (put_spaces (new c reg)) /\
  create_fields td (put_spaces (new c reg)) = Ok (spaces_fields td reg c).
Proof.
  intros td c reg [H1 [H2 [H3 [H4 R]]]]. split.
  - unfold create_function_spaces. cbn. rewrite H1. reflexivity.
  - destruct td.
    + unfold create_fields, create_function_spaces, bind. cbn. rewrite H1. cbn. rewrite H2. cbn.
      rewrite (H3 eq_refl). unfold spaces_fields, put_fields, note, labels_of, eqs_n, fields_n, spaces_n. cbn.
      rewrite app_nil_r. reflexivity.
    + unfold create_fields, bind. cbn [put_spaces new spaces conf]. unfold new, put_spaces.
      cbn [conf spaces fields eqs stepper exporters initialized next journal registry app].
      rewrite H2. cbn [negb].
      rewrite (add_tracers_ok _ _ (mkFields 1 0 c [] false)); [reflexivity | reflexivity | exact (H4 eq_refl) | exact R].
Qed.


Lemma to_eqs : forall td c reg, fields_valid td c reg -> eqs_valid td c ->
  initialize td (new c reg) =
  bind (create_timestepper td (at_eqs td reg c)) (fun s =>
  bind (match exporters s with None => create_exporters td s | Some _ => Ok s end) (fun s =>
  Ok (set_initialized s))).
Proof.
  intros td c reg F V. destruct (to_fields td c reg F) as [E1 E2].
  assert (E3 : create_equations td (put_spaces (new c reg)) = Ok (at_eqs td reg c)).
  { transitivity (create_equations td (spaces_fields td reg c)).
    - unfold create_equations. change (fields (put_spaces (new c reg))) with (@None fields_t). cbv iota.
      rewrite E2. reflexivity.
    - unfold spaces_fields.
      rewrite (equations_gen td c V (spaces_n td)) by reflexivity.
      unfold at_eqs. rewrite <- app_assoc. reflexivity. }
  unfold initialize. change (spaces (new c reg)) with (@None (nat * cfg)). cbv iota. rewrite E1. cbn [bind].
  change (eqs (put_spaces (new c reg))) with (@None eqs_t). cbv iota. rewrite E3. reflexivity.
Qed.

(** stepper and exporters from there on, when the configuration [c'] in force now asks for
    what [c] built *)
Lemma stepper_from : forall td c c' reg, c_dt_ok c' = true -> c_tracers c' = c_tracers c ->
  (td = false -> exists ps, needed c' = Some ps /\ incl ps (parts_of td c)) ->
  create_timestepper td (configure c' (at_eqs td reg c)) =
  Ok (note (put_stepper (configure c' (at_eqs td reg c))
              (mkStepper (S (eqs_n td)) (eqs_n td) (fields_n td) c' true)) KStepper).
Proof.
  intros td c c' reg H T N. unfold create_timestepper, bind. cbn [configure at_eqs eqs]. destruct td.
  - change (has_parts [Sw] (configure c' (at_eqs true reg c))) with true. cbv iota zeta.
    cbn. rewrite H. reflexivity.
  - destruct (N eq_refl) as [ps [E I]]. change (conf (configure c' (at_eqs false reg c))) with c'. rewrite H. cbn [negb]. rewrite E.
    replace (has_parts ps _) with true
      by (symmetry; unfold has_parts; cbn [eqs configure at_eqs e_parts]; apply parts_in; exact I).
    replace (has_fields c' _) with true.
    2:{ symmetry. unfold has_fields. cbn [fields configure at_eqs f_labels]. unfold labels_of. rewrite T.
        apply forallb_forall. intros l Hl. apply memb_in. exact Hl. }
    reflexivity.
Qed.
Lemma exporters_from : forall td s t, stepper s = Some t ->
  (c_no_exports (conf s) = false -> c_vtk_ok (conf s) = true /\ c_exports_ok (conf s) = true) ->
  create_exporters td s =
  Ok (note (put_exporters s (mkExporters (next s) (cur_fields s) (conf s)
              (if c_no_exports (conf s) then [] else ["vtk"; "hdf5"]))) KExporters).
Proof.
  intros td s t E H. unfold create_exporters. rewrite E. cbn [bind]. cbv zeta.
  cbn [conf note put_exporters].
  destruct (c_no_exports (conf s)); [reflexivity |].
  destruct (H eq_refl) as [A B]. rewrite A. cbn [negb]. cbn. rewrite B. reflexivity.
Qed.

(** 2D: an unacceptable time step leaves a solver that can be initialised once the time
    step is corrected, without building anything again. *)
Theorem C71_retry_time_step : forall c reg, valid false c ->
  (forall l, In l (c_tracers c) -> ~ In l reg) ->
  (exists s, step false (new (bad_dt c) reg) Initialize = Raise EStep s) /\
  let s := run false (new (bad_dt c) reg) [Initialize; Configure c; Initialize] in
  ready s /\ built KSpaces s = 1 /\ built KFields s = 1 /\ built KEquations s = 1.
Proof.
  intros c reg V R. destruct (valid_parts false c reg V R) as [F Q].
  assert (E4 : step false (new (bad_dt c) reg) Initialize = Raise EStep (at_eqs false reg (bad_dt c)))
    by (unfold step; rewrite (to_eqs false (bad_dt c) reg F Q); reflexivity).
  split; [exists (at_eqs false reg (bad_dt c)); exact E4 |].
  cbv zeta. unfold run. cbn [fold_left]. rewrite E4. cbn [final step].
  set (s := configure c (at_eqs false reg (bad_dt c))).
  assert (H3 : c_dt_ok c = true) by apply V.
  assert (H4 : c_no_exports c = false -> c_vtk_ok c = true /\ c_exports_ok c = true) by apply V.
  assert (E5 : create_timestepper false s = Ok (note (put_stepper s (mkStepper 3 2 1 c true)) KStepper)).
  { apply (stepper_from false (bad_dt c) c reg H3 eq_refl). intros _. change (parts_of false (bad_dt c)) with (parts_of false c). exact (needed_parts _ _ _ V R eq_refl). }
  set (s1 := note (put_stepper s (mkStepper 3 2 1 c true)) KStepper) in *.
  assert (E6 := exporters_from false s1 _ eq_refl H4).
  assert (E : initialize false s = Ok (set_initialized (note (put_exporters s1 (mkExporters (next s1) (cur_fields s1) (conf s1)
              (if c_no_exports (conf s1) then [] else ["vtk"; "hdf5"]))) KExporters))).
  { unfold initialize. change (spaces s) with (Some (0, bad_dt c)). cbn [bind].
    change (eqs s) with (eqs (at_eqs false reg (bad_dt c))). cbn [eqs at_eqs bind].
    change (stepper s) with (@None stepper_t). cbv iota. rewrite E5. cbn [bind].
    change (exporters s1) with (@None exporters_t). cbv iota. rewrite E6. reflexivity. }
  rewrite E. cbn [final]. subst s1 s. split; [| repeat split].
  unfold ready. split; [reflexivity |]. split; [| split; [| split; [| split]]].
  - unfold wired. cbn. do 6 eexists. repeat (split; [reflexivity |]). reflexivity.
  - eexists. split; reflexivity.
  - eexists. split; reflexivity.
  - eexists. split; reflexivity.
  - eexists. split; reflexivity.
Qed.
Example C71_retry_time_step_valid : valid false ex2 /\ c_dt_ok (bad_dt ex2) = false.
Proof. split; [apply C71_setup_valid | reflexivity]. Qed.

(** 3D: the stepper is kept although it was never given a time step: the next call
    succeeds, and the solver runs with it. *)
Theorem C71_3d_time_step_retry_refuted : forall c reg, valid true c ->
  (exists s, step true (new (bad_dt c) reg) Initialize = Raise EStep s) /\
  let s := run true (new (bad_dt c) reg) [Initialize; Configure c; Initialize] in
  initialized s = true /\ (exists t, stepper s = Some t /\ s_dt t = false) /\ ~ ready s.
Proof.
  intros c reg V.
  pose proof V as V'. destruct V' as [A [B [D [H4 [G _]]]]]. specialize (G eq_refl).
  assert (T : exists s, initialize true (new (bad_dt c) reg) = Raise EStep s /\ spaces s <> None /\ eqs s <> None /\
     (exists t, stepper s = Some t /\ s_dt t = false) /\ exporters s = None /\ initialized s = false).
  { unfold initialize, create_timestepper, create_equations, create_fields, create_function_spaces, bind.
    cbn. rewrite A. cbn. rewrite A. cbn. rewrite B. cbn. rewrite G. cbn.
    eexists. split; [reflexivity |]. cbn. repeat split; try discriminate. eexists; split; reflexivity. }
  destruct T as [s [E [T1 [T2 [[t [T3 T4]] [T5 T6]]]]]].
  split; [exists s; exact E |]. cbv zeta. unfold run. cbn [fold_left step]. rewrite E. cbn [final].
  set (s1 := configure c s).
  assert (E6 := exporters_from true s1 t T3 H4).
  assert (E7 : initialize true s1 = Ok (set_initialized (note (put_exporters s1 (mkExporters (next s1) (cur_fields s1) (conf s1)
              (if c_no_exports (conf s1) then [] else ["vtk"; "hdf5"]))) KExporters))).
  { unfold initialize. change (spaces s1) with (spaces s). destruct (spaces s) eqn:X1; [| contradiction]. cbn [bind].
    change (eqs s1) with (eqs s). destruct (eqs s) eqn:X2; [| contradiction]. cbn [bind].
    change (stepper s1) with (stepper s). rewrite T3. cbn [bind].
    change (exporters s1) with (exporters s). rewrite T5. rewrite E6. reflexivity. }
  rewrite E7. cbn [final]. split; [reflexivity |]. split.
  - exists t. split; [exact T3 | exact T4].
  - intros [_ [_ [_ [_ [[t' [Y1 Y2]] _]]]]]. cbn in Y1. rewrite T3 in Y1. injection Y1 as <-. congruence.
Qed.

(** A failing export manager (an output directory that cannot be created, say) leaves the
    dictionary of managers behind: the next call succeeds and the run writes nothing, or
    no HDF5 files. *)
Theorem C71_failed_exports_refuted : forall three_d c reg, valid three_d c ->
  (forall l, In l (c_tracers c) -> ~ In l reg) ->
  (exists s, step three_d (new (bad_vtk c) reg) Initialize = Raise EExport s) /\
  (exists s, step three_d (new (bad_hdf5 c) reg) Initialize = Raise EExport s) /\
  (forall c' n,
    let s := run three_d (new (bad_vtk c) reg) (Initialize :: Configure c' :: repeat Use (S n)) in
    initialized s = true /\ exists x, exporters s = Some x /\ x_managers x = []) /\
  (forall c' n,
    let s := run three_d (new (bad_hdf5 c) reg) (Initialize :: Configure c' :: repeat Use (S n)) in
    initialized s = true /\ exists x, exporters s = Some x /\ x_managers x = ["vtk"]).
Proof.
  intros td c reg V R. destruct (valid_parts td c reg V R) as [F Q].
  assert (D : c_dt_ok c = true) by apply V.
  assert (N : td = false -> exists ps, needed c = Some ps /\ incl ps (parts_of td c))
    by (intros X; exact (needed_parts _ _ _ V R X)).
  assert (Main : forall b ms, (b = bad_vtk c /\ ms = []) \/ (b = bad_hdf5 c /\ ms = ["vtk"]) ->
    exists s, initialize td (new b reg) = Raise EExport s /\
      exists_ KSpaces s = true /\ exists_ KEquations s = true /\ exists_ KStepper s = true /\ initialized s = false /\
      exists x, exporters s = Some x /\ x_managers x = ms).
  { intros b ms Hb.
    assert (Fb : fields_valid td b reg) by (destruct Hb as [[-> _]|[-> _]]; exact F).
    assert (Qb : eqs_valid td b) by (destruct Hb as [[-> _]|[-> _]]; exact Q).
    assert (Db : c_dt_ok b = true) by (destruct Hb as [[-> _]|[-> _]]; exact D).
    assert (Nb : td = false -> exists ps, needed b = Some ps /\ incl ps (parts_of td b))
      by (destruct Hb as [[-> _]|[-> _]]; exact N).
    rewrite (to_eqs td b reg Fb Qb).
    change (at_eqs td reg b) with (configure b (at_eqs td reg b)).
    rewrite (stepper_from td b b reg Db eq_refl Nb). cbn [bind].
    set (s1 := note (put_stepper (configure b (at_eqs td reg b)) _) KStepper).
    change (exporters s1) with (@None exporters_t). cbv iota.
    unfold create_exporters. change (stepper s1) with (Some (mkStepper (S (eqs_n td)) (eqs_n td) (fields_n td) b true)).
    cbn [bind]. cbv zeta. cbn [conf note put_exporters]. change (conf s1) with b.
    destruct Hb as [[-> ->]|[-> ->]].
    - cbn. eexists. split; [reflexivity |]. cbn. repeat split. eexists; split; reflexivity.
    - cbn. eexists. split; [reflexivity |]. cbn. repeat split. eexists; split; reflexivity. }
  assert (Later : forall b ms c' n, (b = bad_vtk c /\ ms = []) \/ (b = bad_hdf5 c /\ ms = ["vtk"]) ->
    let s := run td (new b reg) (Initialize :: Configure c' :: repeat Use (S n)) in
    initialized s = true /\ exists x, exporters s = Some x /\ x_managers x = ms).
  { intros b ms c' n Hb. destruct (Main b ms Hb) as [s [E [X1 [X2 [X3 [X4 [x [X5 X6]]]]]]]].
    cbv zeta. unfold run. cbn [fold_left repeat step]. rewrite E. cbn [final].
    assert (E2 : (if initialized (configure c' s) then Ok (configure c' s) else initialize td (configure c' s)) =
                 Ok (set_initialized (configure c' s))).
    { change (initialized (configure c' s)) with (initialized s). rewrite X4.
      unfold initialize. cbn [exists_] in *.
      change (spaces (configure c' s)) with (spaces s). destruct (spaces s); [| discriminate]. cbn [bind].
      change (eqs (configure c' s)) with (eqs s). destruct (eqs s); [| discriminate]. cbn [bind].
      change (stepper (configure c' s)) with (stepper s). destruct (stepper s); [| discriminate]. cbn [bind].
      change (exporters (configure c' s)) with (exporters s). rewrite X5. reflexivity. }
    rewrite E2. cbn [final].
    assert (L : forall m s0, initialized s0 = true -> fold_left (fun s o => final (step td s o)) (repeat Use m) s0 = s0).
    { induction m as [|m IH]; intros s0 Hi; [reflexivity |]. cbn [repeat fold_left step]. rewrite Hi. cbn [final]. apply IH, Hi. }
    rewrite L by reflexivity. split; [reflexivity |]. exists x. split; [exact X5 | exact X6]. }
  split; [| split; [| split]].
  - destruct (Main (bad_vtk c) [] (or_introl (conj eq_refl eq_refl))) as [s [E _]]. exists s. exact E.
  - destruct (Main (bad_hdf5 c) ["vtk"] (or_intror (conj eq_refl eq_refl))) as [s [E _]]. exists s. exact E.
  - intros c' n. apply (Later (bad_vtk c) [] c' n). left; split; reflexivity.
  - intros c' n. apply (Later (bad_hdf5 c) ["vtk"] c' n). right; split; reflexivity.
Qed.

(** 2D: a farm that is not a list leaves an empty dictionary of equations behind.  Whatever
    is corrected afterwards and whichever methods are called, short of create_equations
    itself, the solver is never initialised... *)
Lemma needed_nonempty : forall c ps, needed c = Some ps -> ps <> [].
Proof.
  intros c ps H. unfold needed in H.
  destruct (c_nonhydro c), (c_tracers c) as [|l ls], (c_susp c), (c_exner c), (c_tracer_only c);
    cbn in H; try discriminate; injection H as <-; discriminate.
Qed.
Definition dead (s : st) : Prop :=
  spaces s <> None /\ (exists e, eqs s = Some e /\ e_parts e = []) /\ stepper s = None /\ initialized s = false.
Lemma dead_stepper : forall s, dead s -> exists e, create_timestepper false s = Raise e s.
Proof.
  intros s [_ [[q [Eq Ep]] _]]. unfold create_timestepper. rewrite Eq. cbn [bind].
  destruct (negb (c_dt_ok (conf s))); [eexists; reflexivity |].
  destruct (needed (conf s)) as [ps|] eqn:N; [| eexists; reflexivity].
  assert (P : has_parts ps s = false).
  { unfold has_parts. rewrite Eq, Ep. apply needed_nonempty in N. destruct ps; [contradiction | reflexivity]. }
  rewrite P. eexists; reflexivity.
Qed.
Lemma dead_tracers : forall ls s, dead s -> dead (final (add_tracers ls s)).
Proof.
  induction ls as [|l ls IH]; intros s H; [exact H |]. cbn [add_tracers].
  destruct (memb l (registry s)); [exact H |]. cbn. destruct (fields s); [| exact H]. apply IH. exact H.
Qed.
Lemma dead_step : forall s o, dead s -> o <> Create KEquations -> dead (final (step false s o)).
Proof.
  intros s o H Ho. pose proof H as H0. destruct H as [Hs [[q [Eq Ep]] [Et Ei]]].
  assert (Init : dead (final (initialize false s))).
  { unfold initialize. destruct (spaces s) eqn:Es; [| contradiction]. cbn [bind].
    rewrite Eq. cbn [bind]. rewrite Et. destruct (dead_stepper s H0) as [e E]. rewrite E. exact H0. }
  destruct o as [k| | |c].
  - destruct k; cbn [step].
    + unfold create_function_spaces. destruct (c_spaces_ok (conf s)); [| exact H0].
      cbn. split; [discriminate |]. split; [exists q; auto |]. auto.
    + unfold create_fields, bind. destruct (spaces s) eqn:Es; [| contradiction].
      destruct (negb (c_early_ok (conf s))); [exact H0 |]. cbv zeta.
      set (b := note (put_fields s (mkFields (next s) (cur_spaces s) (conf s) [] false)) KFields).
      assert (Hb : dead b) by (split; [cbn; rewrite Es; discriminate |]; split; [exists q; auto |]; auto).
      pose proof (dead_tracers (c_tracers (conf b)) b Hb) as Ht.
      destruct (add_tracers (c_tracers (conf b)) b) as [d|e d]; [| exact Ht]. cbn [final] in *.
      unfold fields_complete. destruct (fields d); exact Ht.
    + contradiction.
    + destruct (dead_stepper s H0) as [e E]. rewrite E. exact H0.
    + unfold create_exporters. rewrite Et. destruct (dead_stepper s H0) as [e E]. rewrite E. exact H0.
  - exact Init.
  - cbn [step]. rewrite Ei. exact Init.
  - cbn. split; [exact Hs |]. split; [exists q; auto |]. auto.
Qed.

Theorem C71_failed_farms : forall c reg ops, valid false c ->
  (forall l, In l (c_tracers c) -> ~ In l reg) -> ~ In (Create KEquations) ops ->
  (exists s, step false (new (bad_farms c) reg) Initialize = Raise EFarms s) /\
  initialized (run false (new (bad_farms c) reg) (Initialize :: ops)) = false.
Proof.
  intros c reg ops V R Hn. destruct (valid_parts false c reg V R) as [F Q].
  destruct (to_fields false (bad_farms c) reg F) as [E1 E2].
  assert (E : exists s, initialize false (new (bad_farms c) reg) = Raise EFarms s /\ dead s).
  { unfold initialize. change (spaces (new (bad_farms c) reg)) with (@None (nat * cfg)). cbv iota. rewrite E1. cbn [bind].
    change (eqs (put_spaces (new (bad_farms c) reg))) with (@None eqs_t). cbv iota.
    unfold create_equations. change (fields (put_spaces (new (bad_farms c) reg))) with (@None fields_t). cbv iota.
    rewrite E2. cbn [bind]. cbv zeta.
    eexists. split; [reflexivity |].
    split; [discriminate |]. split; [eexists; split; reflexivity |]. auto. }
  destruct E as [s [E D]].
  split; [exists s; exact E |]. unfold run. cbn [fold_left step]. rewrite E. cbn [final].
  clear E E1 E2. revert s D. induction ops as [|o ops IH]; intros s D; [apply D |].
  cbn [fold_left]. apply IH; [intros A; apply Hn; right; exact A |].
  apply dead_step; [exact D |]. intros ->. apply Hn. left. reflexivity.
Qed.
(** ... and with it, it is. *)
Example C71_failed_farms_way_out :
  initialized (run false (new (bad_farms ex2) []) [Initialize; Configure ex2; Use; Use]) = false /\
  initialized (run false (new (bad_farms ex2) []) [Initialize; Configure ex2; Create KEquations; Use]) = true.
Proof. split; reflexivity. Qed.

(** 2D: fields created again are not the fields that are stepped and exported, and with
    tracers the call raises after it has replaced them. *)
Theorem C71_recreated_fields_refuted : forall c reg, valid false c ->
  (forall l, In l (c_tracers c) -> ~ In l reg) ->
  let s := run false (new c reg) [Initialize; Create KFields; Use] in
  initialized s = true /\ ~ wired s /\
  (exists f t x, fields s = Some f /\ stepper s = Some t /\ exporters s = Some x /\
     s_fields t <> f_id f /\ x_fields x = s_fields t) /\
  (c_tracers c <> [] ->
     exists l s', step false (run false (new c reg) [Initialize]) (Create KFields) = Raise (ELabel l) s').
Proof.
  intros c reg V R. destruct (valid_parts false c reg V R) as [F Q].
  assert (D : c_dt_ok c = true) by apply V.
  assert (N : exists ps, needed c = Some ps /\ incl ps (parts_of false c))
    by exact (needed_parts _ _ _ V R eq_refl).
  assert (H4 : c_no_exports c = false -> c_vtk_ok c = true /\ c_exports_ok c = true) by apply V.
  assert (He : c_early_ok c = true) by apply V.
  assert (E : exists x, initialize false (new c reg) = Ok (mkSt c (Some (0, c)) (Some (mkFields 1 0 c (c_tracers c) true))
       (Some (mkEqs 2 1 c (parts_of false c) true)) (Some (mkStepper 3 2 1 c true)) (Some x) true 5
       [KSpaces; KFields; KEquations; KStepper; KExporters] (reg ++ c_tracers c)) /\ x_fields x = 1).
  { rewrite (to_eqs false c reg F Q).
    change (at_eqs false reg c) with (configure c (at_eqs false reg c)).
    rewrite (stepper_from false c c reg D eq_refl (fun _ => N)). cbn [bind].
    set (s1 := note (put_stepper (configure c (at_eqs false reg c)) _) KStepper).
    change (exporters s1) with (@None exporters_t). cbv iota.
    rewrite (exporters_from false s1 (mkStepper 3 2 1 c true) eq_refl H4). cbn [bind].
    eexists. split; reflexivity. }
  destruct E as [x [E X]].
  set (s1 := mkSt c (Some (0, c)) (Some (mkFields 1 0 c (c_tracers c) true))
       (Some (mkEqs 2 1 c (parts_of false c) true)) (Some (mkStepper 3 2 1 c true)) (Some x) true 5
       [KSpaces; KFields; KEquations; KStepper; KExporters] (reg ++ c_tracers c)) in *.
  assert (G : exists r, create_fields false s1 = r /\
     (exists f, fields (final r) = Some f /\ f_id f = 5) /\ stepper (final r) = stepper s1 /\
     exporters (final r) = exporters s1 /\ initialized (final r) = true /\
     (forall l ls, c_tracers c = l :: ls -> exists s', r = Raise (ELabel l) s')).
  { eexists. split; [reflexivity |].
    unfold create_fields. change (spaces s1) with (Some (0, c)). cbn [bind].
    change (conf s1) with c. rewrite He. cbn [negb]. cbv zeta.
    change (conf (note (put_fields s1 (mkFields (next s1) (cur_spaces s1) c [] false)) KFields)) with c.
    destruct (c_tracers c) as [|l ls] eqn:T.
    - cbn. split; [eexists; split; reflexivity |]. repeat split. intros l ls A. discriminate.
    - cbn [add_tracers].
      assert (M : memb l (registry (note (put_fields s1 (mkFields (next s1) (cur_spaces s1) c [] false)) KFields)) = true).
      { apply memb_in. subst s1. cbn. apply in_or_app. right. left. reflexivity. }
      rewrite M. cbn. split; [eexists; split; reflexivity |]. repeat split.
      intros l' ls' A. injection A as <- <-. eexists. reflexivity. }
  destruct G as [r [G1 [[f [G2 G3]] [G4 [G5 [G6 G7]]]]]].
  cbv zeta. unfold run. cbn [fold_left step]. rewrite E. cbn [final]. rewrite G1, G6. cbn [final].
  split; [exact G6 |].
  assert (K : exists f0 t x0, fields (final r) = Some f0 /\ stepper (final r) = Some t /\ exporters (final r) = Some x0 /\
     s_fields t <> f_id f0 /\ x_fields x0 = s_fields t).
  { exists f, (mkStepper 3 2 1 c true), x. split; [exact G2 |]. split; [exact G4 |]. split; [exact G5 |].
    split; [rewrite G3; discriminate | exact X]. }
  split; [| split; [exact K |]].
  - intros [i [c1 [f1 [e1 [t1 [x1 [W1 [W2 [W3 [W4 [W5 [_ [_ [_ [W6 _]]]]]]]]]]]]]]].
    destruct K as [f0 [t0 [x0 [K1 [K2 [_ [K4 _]]]]]]].
    rewrite W2 in K1. rewrite W4 in K2. injection K1 as <-. injection K2 as <-. contradiction.
  - intros Hne. destruct (c_tracers c) as [|l ls] eqn:T; [contradiction |].
    destruct (G7 l ls eq_refl) as [s' G8]. exists l, s'. rewrite <- G8. reflexivity.
Qed.

Print Assumptions C71_failed_farms.
Print Assumptions C71_recreated_fields_refuted.
