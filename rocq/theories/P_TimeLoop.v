(** Properties C01-C05: simulation clock, exports, time step, restart, end date. *)
From Verif Require Import Num TimeLoop_Model TimeLoop_Spec TimeLoop_Proofs TimeLoop_Proofs2 TimeLoop_Proofs3.

(** ** C01 *)
Theorem C01_clock_exact_and_run_terminates :
  forall (S : Type) (adv : Qc -> S -> S) (o : options) (sv : solver S) (t0 E : Qc),
  simulation_time sv = Some t0 -> 0 < o_dt o -> resolve_end_time o t0 = Ok E ->
  exists N, steps_needed t0 (o_dt o) E N /\
  (* the final time lies in (E - eps, E - eps + dt], unless no step is needed *)
  (E - t_epsilon < clock t0 (o_dt o) N /\ (N = 0%nat \/ clock t0 (o_dt o) N <= E - t_epsilon + o_dt o)) /\
  forall fuel, (N < fuel)%nat ->
  (exists fin tr, iterate_2d adv fuel o sv = Ok (fin, tr) /\
     simulation_time fin = Some (clock t0 (o_dt o) N) /\
     iteration fin = (iteration sv + Z.of_nat N)%Z /\
     state fin = state_after adv t0 (o_dt o) (state sv) N /\
     advances tr = map (clock t0 (o_dt o)) (seq 0 N) /\
     yields_of tr = map (clock t0 (o_dt o)) (seq 0 N) /\
     timestep_callbacks tr =
       map (fun k => (clock t0 (o_dt o) k, state_after adv t0 (o_dt o) (state sv) k)) (seq 1 N)) /\
  (exists fin tr, iterate_3d adv fuel o sv = Ok (fin, tr) /\
     simulation_time fin = Some (clock t0 (o_dt o) N) /\
     iteration fin = (iteration sv + Z.of_nat N)%Z /\
     state fin = state_after adv t0 (o_dt o) (state sv) N /\
     advances tr = map (clock t0 (o_dt o)) (seq 0 N) /\
     timestep_callbacks tr =
       map (fun k => (clock t0 (o_dt o) k, state_after adv t0 (o_dt o) (state sv) k)) (seq 1 N)).
Proof.
  intros S adv o sv t0 E Ht Hdt HE.
  destruct (steps_needed_exists t0 (o_dt o) E Hdt) as [N HN].
  exists N. split; [exact HN|]. split; [exact (steps_needed_bounds t0 (o_dt o) E N Hdt HN)|].
  intros fuel Hf. unfold iterate_2d, iterate_3d. rewrite Ht. split.
  - exact (run_ok adv true o sv t0 _ E N fuel HE HN Hf).
  - destruct (run_ok adv false o sv t0 (next_export_t sv) E N fuel HE HN Hf)
      as (fin & tr & H1 & H2 & H3 & H4 & H5 & _ & H7).
    exists fin, tr. exact (conj H1 (conj H2 (conj H3 (conj H4 (conj H5 H7))))).
Qed.
Print Assumptions C01_clock_exact_and_run_terminates.

(** A run of 10 s with dt = 3 s makes 4 steps: 0, 3, 6, 9 -> final time 12. *)
Example C01_case :
  let o := mkOptions (qz 3) (qz 5) (Some (qz 10)) None None in
  steps_needed 0 (qz 3) (qz 10) 4 /\ resolve_end_time o 0 = Ok (qz 10) /\
  match iterate_2d (fun t s => s + t) 5 o (fresh o 2 (qz 1)) with
  | Ok (fin, tr) => option_map this (simulation_time fin) = Some (inject_Z 12) /\
                    this (state fin) = inject_Z 19 /\
                    map this (advances tr) = [0%Q; inject_Z 3; inject_Z 6; inject_Z 9]
  | Err _ => False
  end.
Proof.
  cbv zeta. split; [split|split].
  - intros k Hk. do 4 (destruct k as [|k]; [unfold clock; discriminate|]). lia.
  - reflexivity.
  - reflexivity.
  - vm_compute. repeat split.
Qed.

(** ** C02 *)
(** With dt not larger than the export interval T, export number k+1 is made after
    exactly the first step n with n*dt >= (k+1)*T - eps; all counters in lockstep. *)
Theorem C02_exports_regular :
  forall (S : Type) (adv : Qc -> S -> S) (o : options) (sv : solver S) (t0 E : Qc) (N fuel : nat),
  simulation_time sv = Some t0 -> resolve_end_time o t0 = Ok E ->
  steps_needed t0 (o_dt o) E N -> (N < fuel)%nat ->
  0 < o_dt o -> o_dt o <= o_export_time o -> t_epsilon < o_export_time o ->
  exists fin tr sl, iterate_2d adv fuel o sv = Ok (fin, tr) /\
    (forall k n, nth_error sl k = Some n <->
       (n <= N)%nat /\
       first_step_reaching (o_dt o) (o_export_time o + qn k * o_export_time o - t_epsilon) n) /\
    i_export fin = (i_export sv + Z.of_nat (length sl))%Z /\
    exporter_ix fin = map (Z.add (Z.of_nat (length sl))) (ixs_after_initial sv) /\
    exports tr = initial_exports sv t0 ++
      map (fun p => expected_export adv t0 (o_dt o) (state sv) (iteration sv) (i_export sv)
                      (ixs_after_initial sv) (fst p) (snd p))
          (combine (seq 0 (length sl)) sl).
Proof.
  intros S adv o sv t0 E N fuel Ht HE HN Hf Hdt HT HX. unfold iterate_2d. rewrite Ht.
  exact (run_exports_fine adv true o sv t0 (o_export_time o) E N fuel HE HN Hf Hdt HT HX).
Qed.
Print Assumptions C02_exports_regular.

(** The 3D loop: the same, counted from its stored next export time t0 + X. *)
Theorem C02_exports_regular_3d :
  forall (S : Type) (adv : Qc -> S -> S) (o : options) (sv : solver S) (t0 X E : Qc) (N fuel : nat),
  simulation_time sv = Some t0 -> next_export_t sv = t0 + X -> resolve_end_time o t0 = Ok E ->
  steps_needed t0 (o_dt o) E N -> (N < fuel)%nat ->
  0 < o_dt o -> o_dt o <= o_export_time o -> t_epsilon < X ->
  exists fin tr sl, iterate_3d adv fuel o sv = Ok (fin, tr) /\
    (forall k n, nth_error sl k = Some n <->
       (n <= N)%nat /\ first_step_reaching (o_dt o) (X + qn k * o_export_time o - t_epsilon) n) /\
    i_export fin = (i_export sv + Z.of_nat (length sl))%Z /\
    exporter_ix fin = map (Z.add (Z.of_nat (length sl))) (ixs_after_initial sv) /\
    exports tr = initial_exports sv t0 ++
      map (fun p => expected_export adv t0 (o_dt o) (state sv) (iteration sv) (i_export sv)
                      (ixs_after_initial sv) (fst p) (snd p))
          (combine (seq 0 (length sl)) sl).
Proof.
  intros S adv o sv t0 X E N fuel Ht Hn HE HN Hf Hdt HT HX. unfold iterate_3d. rewrite Ht, Hn.
  exact (run_exports_fine adv false o sv t0 X E N fuel HE HN Hf Hdt HT HX).
Qed.
Print Assumptions C02_exports_regular_3d.

(** If dt divides the interval (T = m*dt), the due step is exactly (k+1)*m. *)
Theorem C02_exports_exact_when_dt_divides :
  forall (dt : Qc) (m k n : nat), t_epsilon < dt -> (0 < m)%nat ->
  (first_step_reaching dt (qn m * dt + qn k * (qn m * dt) - t_epsilon) n <-> n = (Datatypes.S k * m)%nat).
Proof. exact first_step_divides. Qed.
Print Assumptions C02_exports_exact_when_dt_divides.

(** A step longer than the export interval: exactly one export after every step. *)
Theorem C02_exports_coarse_step :
  forall (S : Type) (adv : Qc -> S -> S) (o : options) (sv : solver S) (t0 E : Qc) (N fuel : nat),
  simulation_time sv = Some t0 -> resolve_end_time o t0 = Ok E ->
  steps_needed t0 (o_dt o) E N -> (N < fuel)%nat ->
  0 < o_export_time o -> o_export_time o <= o_dt o ->
  exists fin tr, iterate_2d adv fuel o sv = Ok (fin, tr) /\
    exports tr = initial_exports sv t0 ++
      map (fun k => expected_export adv t0 (o_dt o) (state sv) (iteration sv) (i_export sv)
                      (ixs_after_initial sv) k (Datatypes.S k)) (seq 0 N).
Proof.
  intros S adv o sv t0 E N fuel Ht HE HN Hf HT Hd. unfold iterate_2d. rewrite Ht.
  exact (run_exports_coarse adv true o sv t0 E N fuel HE HN Hf HT Hd).
Qed.
Print Assumptions C02_exports_coarse_step.

(** At most one export between two steps, whatever the parameters. *)
Theorem C02_at_most_one_export_per_step :
  forall (S : Type) (adv : Qc -> S -> S) (o : options) (sv : solver S) (t0 E : Qc) (N fuel : nat),
  simulation_time sv = Some t0 -> resolve_end_time o t0 = Ok E ->
  steps_needed t0 (o_dt o) E N -> (N < fuel)%nat ->
  (exists fin tr, iterate_2d adv fuel o sv = Ok (fin, tr) /\ export_between_steps true tr) /\
  (exists fin tr, iterate_3d adv fuel o sv = Ok (fin, tr) /\ export_between_steps true tr).
Proof.
  intros S adv o sv t0 E N fuel Ht HE HN Hf. unfold iterate_2d, iterate_3d. rewrite Ht.
  exact (conj (run_at_most_one adv fuel true o sv t0 _ E N HE HN Hf)
              (run_at_most_one adv fuel false o sv t0 _ E N HE HN Hf)).
Qed.
Print Assumptions C02_at_most_one_export_per_step.

(** dt = 3, T = 5, end 10: exports at 0, 6 (first clock >= 5) and 12 (first >= 10). *)
Example C02_case :
  let o := mkOptions (qz 3) (qz 5) (Some (qz 10)) None None in
  0 < o_dt o /\ o_dt o <= o_export_time o /\ t_epsilon < o_export_time o /\
  match iterate_2d (fun t s => s + t) 5 o (fresh o 2 (qz 1)) with
  | Ok (fin, tr) =>
      map (fun e => (ev_i_export e, ev_indices e, this (ev_time e))) (exports tr)
      = [(0, [0; 0], 0%Q); (1, [1; 1], inject_Z 6); (2, [2; 2], inject_Z 12)]%Z
  | Err _ => False
  end.
Proof.
  cbv zeta. split; [reflexivity|]. split; [discriminate|]. split; [reflexivity|]. vm_compute. reflexivity.
Qed.

(** ** C03 *)
Lemma triple_inj {A B C} (a a' : A) (b b' : B) (c c' : C) :
  (a, b, c) = (a', b', c') -> a = a' /\ b = b' /\ c = c'.
Proof. intros H. inversion H. auto. Qed.

Theorem C03_time_step_fits_export_interval :
  forall (mode : dt_mode) (automatic : bool) (max2 max3 udt udt2 T : Qc) (dt dt2 : Qc) (M : Z),
  0 < max2 -> 0 < max3 -> 0 < udt -> 0 < udt2 -> 0 < T ->
  set_time_step mode automatic max2 max3 udt udt2 T = (dt, dt2, M) ->
  let requested := if automatic then match mode with Mode2d => qmin max2 max3 | _ => max3 end else udt in
  let requested_2d := if automatic then max2 else udt2 in
  (* not larger than requested, a whole number of steps per export, and the coarsest such step *)
  0 < dt /\ dt <= requested /\
  (exists m, (1 <= m)%Z /\ T = qz m * dt) /\
  (forall k, (1 <= k)%Z -> T / qz k <= requested -> T / qz k <= dt) /\
  (* the 2D step divides the 3D step *)
  (1 <= M)%Z /\ dt = qz M * dt2 /\ 0 < dt2 /\
  match mode with Split => dt2 <= requested_2d | _ => dt2 = dt /\ M = 1%Z end.
Proof.
  intros mode automatic max2 max3 udt udt2 T dt dt2 M H2 H3 Hu Hu2 HT Hset req req2.
  assert (Hmin : 0 < qmin max2 max3) by (unfold qmin; destruct (Qcleb max2 max3); assumption).
  assert (Hreq : 0 < req) by (unfold req; destruct automatic, mode; assumption).
  assert (Hreq2 : 0 < req2) by (unfold req2; destruct automatic; assumption).
  destruct (fit_step T req HT Hreq) as (F1 & F2 & F3 & F4 & F5).
  destruct mode.
  - (* split *)
    unfold set_time_step in Hset. fold req2 in Hset.
    change (if automatic then max3 else udt) with req in Hset.
    destruct (fit_step req req2 Hreq Hreq2) as (G1 & G2 & G3 & G4 & _).
    set (d2 := req / qz (qceil (req / req2))) in *.
    destruct (fit_step (T / qz (qceil (T / req))) d2 F1 G1) as (K1 & K2 & K3 & K4 & _).
    cbv zeta in Hset. apply triple_inj in Hset. destruct Hset as (<- & <- & <-).
    repeat split; try assumption; [eexists; split; [exact F4|exact F3]|].
    exact (Qcle_trans _ _ _ K2 G2).
  - unfold set_time_step in Hset. change (if automatic then qmin max2 max3 else udt) with req in Hset.
    cbv zeta in Hset. apply triple_inj in Hset. destruct Hset as (<- & <- & <-).
    repeat split; try assumption; try lia; try (rewrite qz_1; ring).
    eexists; split; [exact F4|exact F3].
  - unfold set_time_step in Hset. change (if automatic then max3 else udt) with req in Hset.
    cbv zeta in Hset. apply triple_inj in Hset. destruct Hset as (<- & <- & <-).
    repeat split; try assumption; try lia; try (rewrite qz_1; ring).
    eexists; split; [exact F4|exact F3].
Qed.
Print Assumptions C03_time_step_fits_export_interval.

(** requested 7 s, interval 20 s: 3 steps of 20/3 s; 2D limit 2 s: 4 sub-steps of 5/3 s *)
Example C03_case :
  match set_time_step Split false (qz 1) (qz 1) (qz 7) (qz 2) (qz 20) with
  | (dt, dt2, M) => Qceqb dt (qq 20 3) && Qceqb dt2 (qq 5 3) && (M =? 4)%Z
  end = true.
Proof. vm_compute. reflexivity. Qed.

(** ** C04 *)
(** Restarting from any export of a run reproduces exactly what the run did after
    that export (same directory), preceded by a repeated export when the output
    directory changes; final solver attributes agree. *)
Theorem C04_restart_reproduces_the_run :
  forall (S F : Type) (adv : Qc -> S -> S) (save : S -> F) (restore : F -> S -> S)
         (o : options) (nexp : nat) (s0 s1 : S) (E : Qc) (m fuel : nat)
         (fin : solver S) (tr tr1 tr2 : list (event S)) (e : export_record S)
         (files : Z -> option (stored F)) (same_directory : bool),
  (forall s s', restore (save s) s' = s) ->
  o_initial_date o = None -> o_end_time o = Some E ->
  t_epsilon < o_dt o -> (0 < m)%nat -> o_export_time o = qn m * o_dt o ->
  iterate_2d adv fuel o (fresh o nexp s0) = Ok (fin, tr) ->
  tr = tr1 ++ Export e :: tr2 ->
  files (ev_i_export e) =
    Some (mkStored (save (ev_state e)) (KeyTime (ev_time e)) (KeyTime (ev_time e))) ->
  exists sv', load_state restore o files (mkLoad (ev_i_export e) same_directory None None None)
                (fresh o nexp s1) = Ok sv' /\
    simulation_time sv' = Some (ev_time e) /\ state sv' = ev_state e /\
    iteration sv' = ev_iteration e /\
    forall fuel', (fuel <= fuel')%nat ->
    iterate_2d adv fuel' o sv' =
      Ok (set_flag (negb same_directory) fin, (if same_directory then [] else [Export e]) ++ tr2).
Proof.
  intros S F adv save restore o nexp s0 s1 E m fuel fin tr tr1 tr2 e files same Hrs Hid HE Heps Hm HT Hrun Htr Hf.
  destruct (run_restart adv F save restore Hrs true o nexp s0 s1 E m fuel fin tr tr1 e tr2 files same
              (fun _ t => t + o_export_time o) Hid HE Heps Hm HT
              (fun sv t => or_introl eq_refl) Hrun Htr Hf) as (sv' & H1 & H2 & H3 & H4 & H5).
  exists sv'. repeat split; try assumption. intros fuel' Hf'. unfold iterate_2d. rewrite H2. exact (H5 fuel' Hf').
Qed.
Print Assumptions C04_restart_reproduces_the_run.

Theorem C04_restart_reproduces_the_run_3d :
  forall (S F : Type) (adv : Qc -> S -> S) (save : S -> F) (restore : F -> S -> S)
         (o : options) (nexp : nat) (s0 s1 : S) (E : Qc) (m fuel : nat)
         (fin : solver S) (tr tr1 tr2 : list (event S)) (e : export_record S)
         (files : Z -> option (stored F)) (same_directory : bool),
  (forall s s', restore (save s) s' = s) ->
  o_initial_date o = None -> o_end_time o = Some E ->
  t_epsilon < o_dt o -> (0 < m)%nat -> o_export_time o = qn m * o_dt o ->
  iterate_3d adv fuel o (fresh o nexp s0) = Ok (fin, tr) ->
  tr = tr1 ++ Export e :: tr2 ->
  files (ev_i_export e) =
    Some (mkStored (save (ev_state e)) (KeyTime (ev_time e)) (KeyTime (ev_time e))) ->
  exists sv', load_state restore o files (mkLoad (ev_i_export e) same_directory None None None)
                (fresh o nexp s1) = Ok sv' /\
    simulation_time sv' = Some (ev_time e) /\ state sv' = ev_state e /\
    iteration sv' = ev_iteration e /\
    forall fuel', (fuel <= fuel')%nat ->
    iterate_3d adv fuel' o sv' =
      Ok (set_flag (negb same_directory) fin, (if same_directory then [] else [Export e]) ++ tr2).
Proof.
  intros S F adv save restore o nexp s0 s1 E m fuel fin tr tr1 tr2 e files same Hrs Hid HE Heps Hm HT Hrun Htr Hf.
  destruct (run_restart adv F save restore Hrs false o nexp s0 s1 E m fuel fin tr tr1 e tr2 files same
              (fun sv t => next_export_t sv) Hid HE Heps Hm HT
              (fun sv t => or_intror eq_refl) Hrun Htr Hf) as (sv' & H1 & H2 & H3 & H4 & H5).
  exists sv'. repeat split; try assumption. intros fuel' Hf'. unfold iterate_3d. rewrite H2. exact (H5 fuel' Hf').
Qed.
Print Assumptions C04_restart_reproduces_the_run_3d.

(** The hypotheses are met: dt = 2, T = 4, end 10, restart from export 1. *)
Example C04_case :
  let o := mkOptions (qz 2) (qz 4) (Some (qz 10)) None None in
  t_epsilon < o_dt o /\ o_export_time o = qn 2 * o_dt o /\
  match iterate_2d (fun t s => s + t) 9 o (fresh o 1 (qz 1)) with
  | Ok (fin, tr) => exists tr1 e tr2, tr = tr1 ++ Export e :: tr2 /\ ev_i_export e = 1%Z /\ length (exports tr2) = 1%nat
  | Err _ => False
  end.
Proof.
  cbv zeta. split; [reflexivity|]. split; [apply Qc_is_canon; reflexivity|].
  vm_compute. eexists [_; _; _; _; _; _; _], _, _. split; [reflexivity|]. split; reflexivity.
Qed.

(** Finding 1: a stored (non legacy) file without time attribute makes the restarted
    run fail: the fallback value of [metadata.get] is never used. *)
Theorem C04_missing_time_attribute_refuted :
  forall (S F : Type) (adv : Qc -> S -> S) (restore : F -> S -> S) (o : options) (sv : solver S)
         (files : Z -> option (stored F)) (i : Z) (f : F) (same : bool) (fuel : nat),
  files i = Some (mkStored f KeyNone KeyNone) ->
  exists sv', load_state restore o files (mkLoad i same None None None) sv = Ok sv' /\
    simulation_time sv' = None /\
    iterate_2d adv fuel o sv' = Err TypeError_no_time /\
    iterate_3d adv fuel o sv' = Err TypeError_no_time.
Proof.
  intros. unfold load_state. cbn [la_i_stored]. rewrite H. eexists. repeat split.
Qed.
Print Assumptions C04_missing_time_attribute_refuted.

(** When the two files disagree the elevation file decides; when only one of them
    carries the key, that one does. *)
Theorem C04_time_of_disagreeing_files :
  forall (S F : Type) (restore : F -> S -> S) (o : options) (sv : solver S)
         (files : Z -> option (stored F)) (i : Z) (f : F) (same : bool) (tu te : Qc),
  (files i = Some (mkStored f (KeyTime tu) (KeyTime te)) ->
   exists sv', load_state restore o files (mkLoad i same None None None) sv = Ok sv' /\ simulation_time sv' = Some te) /\
  (files i = Some (mkStored f (KeyTime tu) NoKey) ->
   exists sv', load_state restore o files (mkLoad i same None None None) sv = Ok sv' /\ simulation_time sv' = Some tu) /\
  (files i = Some (mkStored f NoKey (KeyTime te)) ->
   exists sv', load_state restore o files (mkLoad i same None None None) sv = Ok sv' /\ simulation_time sv' = Some te).
Proof.
  intros. unfold load_state. cbn [la_i_stored]. repeat split; intros H; rewrite H; eexists; split; reflexivity.
Qed.
Print Assumptions C04_time_of_disagreeing_files.

(** Legacy files (no metadata): time and iteration are inferred, exact when dt divides
    the export interval. *)
Theorem C04_legacy_time_inferred :
  forall (S F : Type) (restore : F -> S -> S) (o : options) (sv : solver S)
         (files : Z -> option (stored F)) (i m : nat) (f : F) (same : bool),
  0 < o_dt o -> o_export_time o = qn m * o_dt o ->
  files (Z.of_nat i) = Some (mkStored f NoKey NoKey) ->
  exists sv', load_state restore o files (mkLoad (Z.of_nat i) same None None None) sv = Ok sv' /\
    simulation_time sv' = Some (qn i * o_export_time o) /\ iteration sv' = Z.of_nat (i * m).
Proof.
  intros S F restore o sv files i m f same Hdt HT H. unfold load_state. cbn [la_i_stored]. rewrite H.
  eexists. split; [reflexivity|].
  cbn [simulation_time iteration la_t la_i_export la_iteration merge_meta sd_uv_time sd_elev_time].
  change (qz (Z.of_nat i)) with (qn i). rewrite HT.
  assert (Hn := qc_pos_neq _ Hdt).
  replace (qn i * (qn m * o_dt o) / o_dt o) with (qn (i * m)) by (rewrite qn_mul; field; exact Hn).
  unfold qn at 1 4. rewrite qceil_qz. split; [|reflexivity].
  f_equal. change (qz (Z.of_nat (i * m))) with (qn (i * m)). rewrite qn_mul. ring.
Qed.
Print Assumptions C04_legacy_time_inferred.

(** Finding 2: without divisibility a 2D restart shifts the export schedule
    (dt = 2, T = 3, restart from export 1 at t = 4: next export at 8 instead of 6). *)
Theorem C04_restart_2d_schedule_shift_refuted :
  exists (o : options) (fin : solver Qc) (tr tr1 tr2 : list (event Qc)) (e : export_record Qc) (sv' : solver Qc)
         (fin' : solver Qc) (tr' : list (event Qc)),
    iterate_2d (fun t s => s) 9 o (fresh o 1 0) = Ok (fin, tr) /\ tr = tr1 ++ Export e :: tr2 /\
    load_state (fun f _ => f) o (fun _ => Some (mkStored (ev_state e) (KeyTime (ev_time e)) (KeyTime (ev_time e))))
       (mkLoad (ev_i_export e) true None None None) (fresh o 1 0) = Ok sv' /\
    iterate_2d (fun t s => s) 9 o sv' = Ok (fin', tr') /\
    map ev_time (exports tr') <> map ev_time (exports tr2).
Proof.
  set (o := mkOptions (qz 2) (qz 3) (Some (qz 10)) None None).
  exists o.
  destruct (iterate_2d (fun t s => s) 9 o (fresh o 1 0)) as [[fin tr]|e] eqn:E1; [|vm_compute in E1; discriminate].
  vm_compute in E1. inversion E1; subst; clear E1.
  do 2 eexists.
  eexists [_; _; _; _; _; _; _], _, _, _, _, _.
  split; [reflexivity|]. split; [reflexivity|]. split; [vm_compute; reflexivity|].
  split; [vm_compute; reflexivity|]. vm_compute. discriminate.
Qed.
Print Assumptions C04_restart_2d_schedule_shift_refuted.

(** Finding 3: the 2D solver stores and reloads only velocity and elevation; with a
    tracer in the state (save drops it) the restarted run differs. *)
Theorem C04_restart_2d_tracer_lost_refuted :
  exists (adv : Qc -> Qc * Qc -> Qc * Qc) (o : options) fin tr tr1 tr2 e sv' fin' tr',
    iterate_2d adv 9 o (fresh o 1 (0, 0)) = Ok (fin, tr) /\ tr = tr1 ++ Export e :: tr2 /\
    load_state (fun (hydro : Qc) s => (hydro, snd s)) o
       (fun _ => Some (mkStored (fst (ev_state e)) (KeyTime (ev_time e)) (KeyTime (ev_time e))))
       (mkLoad (ev_i_export e) true None None None) (fresh o 1 (0, 0)) = Ok sv' /\
    iterate_2d adv 9 o sv' = Ok (fin', tr') /\ state fin' <> state fin.
Proof.
  set (o := mkOptions (qz 1) (qz 1) (Some (qz 3)) None None).
  exists (fun _ s => (fst s + 1, snd s + 1)), o.
  destruct (iterate_2d (fun _ s => (fst s + 1, snd s + 1)) 9 o (fresh o 1 (0, 0))) as [[fin tr]|e] eqn:E1; [|vm_compute in E1; discriminate].
  vm_compute in E1. inversion E1; subst; clear E1.
  do 2 eexists.
  eexists [_; _; _; _], _, _, _, _, _.
  split; [reflexivity|]. split; [reflexivity|]. split; [vm_compute; reflexivity|].
  split; [vm_compute; reflexivity|]. vm_compute. discriminate.
Qed.
Print Assumptions C04_restart_2d_tracer_lost_refuted.

(** Finding 4: in 3D, overriding only the time ([load_state(k, t=0)]) leaves the next
    export time at (k+1)*T, so nothing is exported before that clock value. *)
Theorem C04_restart_3d_time_override_delays_exports :
  forall (S F : Type) (adv : Qc -> S -> S) (restore : F -> S -> S) (o : options) (sv : solver S)
         (files : Z -> option (stored F)) (k : nat) (d : stored F) (same : bool) (E : Qc) (N fuel : nat),
  files (Z.of_nat k) = Some d ->
  resolve_end_time o 0 = Ok E -> steps_needed 0 (o_dt o) E N -> (N < fuel)%nat ->
  0 < o_dt o -> o_dt o <= o_export_time o -> t_epsilon < o_export_time o ->
  exists sv' fin tr sl,
    load_state restore o files (mkLoad (Z.of_nat k) same (Some 0) None None) sv = Ok sv' /\
    iterate_3d adv fuel o sv' = Ok (fin, tr) /\
    length (exports tr) = (length sl + if same then 0 else 1)%nat /\
    forall j n, nth_error sl j = Some n ->
      first_step_reaching (o_dt o) (qn (k + Datatypes.S j) * o_export_time o - t_epsilon) n.
Proof.
  intros S F adv restore o sv files k d same E N fuel Hf HE HN Hfu Hdt HT He.
  unfold load_state. cbn [la_i_stored]. rewrite Hf. cbn [la_t la_i_export la_iteration la_same_outputdir].
  set (sv' := mkSolver _ _ _ _ _ _ _).
  assert (Hnx : next_export_t sv' = 0 + (qn k * o_export_time o + o_export_time o)).
  { unfold sv'. cbn [next_export_t]. change (qz (Z.of_nat k)) with (qn k). ring. }
  destruct (run_exports_fine adv false o sv' 0 (qn k * o_export_time o + o_export_time o) E N fuel HE HN Hfu Hdt HT)
    as (fin & tr & sl & R1 & R2 & R3 & R4 & R5).
  { assert (0 <= qn k * o_export_time o) by (apply qc_mult_nonneg; [apply qn_nonneg | qc]). qc. }
  exists sv', fin, tr, sl. split; [reflexivity|].
  split; [unfold iterate_3d; cbn [simulation_time sv']; change (simulation_time sv') with (Some (Q2Qc 0)); cbv iota; rewrite Hnx; exact R1|].
  split.
  - rewrite R5, app_length, map_length, combine_length, seq_length, Nat.min_id.
    unfold initial_exports, sv'. cbn [export_initial_state]. destruct same; simpl; lia.
  - intros j n Hj. apply R2 in Hj. destruct Hj as [_ Hj].
    replace (qn (k + Datatypes.S j) * o_export_time o - t_epsilon)
      with (qn k * o_export_time o + o_export_time o + qn j * o_export_time o - t_epsilon); [exact Hj|].
    rewrite qn_add, qn_S. ring.
Qed.
Print Assumptions C04_restart_3d_time_override_delays_exports.

(** ** C05 *)
(** The end time derived from the end date is right exactly for runs that start at
    simulation time 0. *)
Theorem C05_end_date_right_iff_started_at_zero :
  forall (o : options) (t0 init_date end_date : Qc),
  o_initial_date o = Some init_date -> o_end_date o = Some end_date -> init_date < end_date ->
  (resolve_end_time o t0 = Ok (end_date - init_date) <-> t0 = 0).
Proof. exact end_date_iff. Qed.
Print Assumptions C05_end_date_right_iff_started_at_zero.

(** Finding 5: resuming a 30 day run after one hour aborts with an assertion error,
    and resuming a 30 day run after 1 second stops a day too early. *)
Theorem C05_end_date_on_resume_refuted :
  exists (o : options) (t0 t1 init_date end_date : Qc),
    o_initial_date o = Some init_date /\ o_end_date o = Some end_date /\
    0 < t0 /\ t0 < end_date - init_date /\ resolve_end_time o t0 = Err AssertionError_end_date /\
    0 < t1 /\ t1 < end_date - init_date /\
    exists E, resolve_end_time o t1 = Ok E /\ E < end_date - init_date - qz 86000.
Proof.
  exists (mkOptions (qz 60) (qz 3600) None (Some 0) (Some (qz 2592000))), (qz 3600), (qz 1), 0, (qz 2592000).
  repeat split; try reflexivity. eexists. split; [vm_compute; reflexivity|]. reflexivity.
Qed.
Print Assumptions C05_end_date_on_resume_refuted.

(** Without dates, the configured end time is used unchanged. *)
Theorem C05_end_time_used_unchanged :
  forall (o : options) (t0 E : Qc), (o_initial_date o = None \/ o_end_date o = None) ->
  o_end_time o = Some E -> resolve_end_time o t0 = Ok E.
Proof. intros o t0 E [H|H] HE; unfold resolve_end_time; rewrite H, HE; destruct (o_initial_date o); reflexivity. Qed.
Print Assumptions C05_end_time_used_unchanged.
