(* C61: what the mode splitting does with the depth averaged momentum of the
   3D equations.  Fixed mesh (use_ale_moving_mesh off), no velocity limiter. *)
From Coq Require Import Reals List Bool Arith Lia Lra.
From Verif Require Import Coupled3d_Model Coupled3d_Proofs P_Coupled3d.
Import ListNotations.
Local Open Scope R_scope.

(* depth averaging of a 3D velocity into a 2D one, and copying a 2D velocity
   to every level: A is linear and recovers what X copies *)
Record averaging (A X : vec -> vec) : Prop := {
  av_minus : forall u v i, A (fun j => u j - v j) i = A u i - A v i;
  av_plus : forall u v i, A (fun j => u j + v j) i = A u i + A v i;
  av_copy : forall v i, A (X v) i = v i }.

(* the three solvers of the coupling compute these maps *)
Record coupling_solvers (den : op -> list vec -> fld -> vec) (A X : vec -> vec) : Prop := {
  cp_avg : forall u m e i, den OExtract [den OAvg [u; m; e] Dav3; m] Dav2 i = A u i;
  cp_copy_dav : forall v m, den OCopyDav [v; m] Dav3 = X v;
  cp_copy_uv : forall v m, den OCopyUv [v; m] Dav3 = X v }.

Section Coupling.
  Variable den : op -> list vec -> fld -> vec.
  Variables dt gamma : R.
  Variables A X : vec -> vec.
  Hypothesis HA : averaging A X.
  Hypothesis HC : coupling_solvers den A X.
  Hypothesis Hdt : dt <> 0.
  Notation run := (run den dt gamma).
  Notation exec := (exec den dt gamma).

(* After the 2D coupling the 3D velocity has no depth average left, the
   velocity uv_3d + uv_dav_3d has depth average uv_2d, and dt times the
   forcing handed to the 2D equations is the depth average that was removed. *)
Theorem C61_coupling_values : forall s,
  let s' := run coupling s in
  (forall i, A (s' Uv3) i = 0) /\
  (forall i, A (fun j => s' Uv3 j + s' Dav3 j) i = s Uv2 i) /\
  (forall i, dt * s' Split i = A (s Uv3) i) /\
  (exists d, (forall i, d i = A (s Uv3) i) /\ (forall j, s Uv3 j = s' Uv3 j + X d j)) /\
  s' Uv2 = s Uv2.
Proof.
  intros s s'.
  pose (d := den OExtract [den OAvg [s Uv3; s Mesh; s Ecg] Dav3; s Mesh] Dav2).
  assert (Hd : forall i, d i = A (s Uv3) i) by (intros i; apply (cp_avg _ _ _ HC)).
  assert (E3 : s' Uv3 = fun j => s Uv3 j - X d j).
  { change (s' Uv3) with (fun j => s Uv3 j - den OCopyDav [d; s Mesh] Dav3 j).
    rewrite (cp_copy_dav _ _ _ HC). reflexivity. }
  assert (ED : s' Dav3 = X (s Uv2)).
  { change (s' Dav3) with (den OCopyUv [s Uv2; s Mesh] Dav3). apply (cp_copy_uv _ _ _ HC). }
  assert (ES : s' Split = fun i => d i / dt) by reflexivity.
  assert (M0 : forall i, A (s' Uv3) i = 0).
  { intros i. rewrite E3, (av_minus _ _ HA), (av_copy _ _ HA), Hd. ring. }
  split; [exact M0|]. split; [|split; [|split]].
  - intros i. rewrite (av_plus _ _ HA), M0, ED, (av_copy _ _ HA). ring.
  - intros i. rewrite ES, Hd. field. exact Hdt.
  - exists d. split; [exact Hd|]. intros j. rewrite E3. ring.
  - reflexivity.
Qed.

  Lemma coupling_hid : forall s k, run coupling s (Hid k) = s (Hid k).
  Proof. intros. apply run_frame. reflexivity. Qed.

  Definition keeps (k : fld) (p : list op) : Prop :=
    forallb (fun x => negb (fmem k (outs x))) p = true.

  Lemma keeps_app : forall k p q, keeps k p -> keeps k q -> keeps k (p ++ q).
  Proof. intros k p q H1 H2. unfold keeps. rewrite forallb_app, H1, H2. reflexivity. Qed.

  Lemma keeps_when : forall k b p, keeps k p -> keeps k (when b p).
  Proof. intros k [] p H; [exact H | reflexivity]. Qed.

  Lemma keeps_flat : forall k (f : eqn -> list op) l, (forall q, In q l -> keeps k (f q)) ->
    keeps k (flat_map f l).
  Proof.
    intros k f l. induction l as [|q r IH]; intros H; [reflexivity|].
    cbn [flat_map]. apply keeps_app; [apply H; now left | apply IH; intros q' Hq; apply H; now right].
  Qed.

  Lemma run_keeps : forall k p s, keeps k p -> run p s k = s k.
  Proof. intros. now apply run_frame. Qed.

  (* the equations before momentum *)
  Definition tracers (o : copt) : list eqn :=
    (if o_salt o then [KSalt] else []) ++ (if o_temp o then [KTemp] else [])
    ++ (if has_tadv o then [KPsi; KTke] else []).

  Lemma equations_split : forall o, equations o = tracers o ++ [KMom].
  Proof. intros o. unfold equations, tracers. now rewrite <- !app_assoc. Qed.

  Lemma tracers_not_mom : forall o q, In q (tracers o) -> q <> KMom.
  Proof.
    intros o q H ->. unfold tracers in H. rewrite !in_app_iff in H.
    destruct (o_salt o), (o_temp o), (has_tadv o); cbn in H; intuition discriminate.
  Qed.

  (* --------------------------------------------------------------- *)
  (* Two stage scheme                                                  *)
  (* --------------------------------------------------------------- *)
  Definition mom_args (s : state) : list vec :=
    map s (ins (OPrep KMom 0)).

  (* What SSPRK22ALE does to the depth average of the momentum equation's
     solution on a fixed mesh (TimeInt_Model): mold, t0, t1 read off the
     private storage the depth average of the old solution and of the two
     stage tendencies; L is the depth averaged tendency as a function of the
     fields the assembly reads. *)
  Record rk_momentum (mold t0 t1 : vec -> vec) (L : list vec -> vec) : Prop := {
    rm_prep0 : forall s i, let h := val den dt gamma (OPrep KMom 0) s (Hid KMom) in
       mold h i = A (s Uv3) i /\ t0 h i = L (mom_args s) i;
    rm_solve0 : forall h m i,
       A (den (OSolve KMom 0) [h; m] Uv3) i = mold h i + dt * t0 h i /\
       mold (den (OSolve KMom 0) [h; m] (Hid KMom)) i = mold h i /\
       t0 (den (OSolve KMom 0) [h; m] (Hid KMom)) i = t0 h i;
    rm_prep1 : forall s i, let h := val den dt gamma (OPrep KMom 1) s (Hid KMom) in
       mold h i = mold (s (Hid KMom)) i /\ t0 h i = t0 (s (Hid KMom)) i /\ t1 h i = L (mom_args s) i;
    rm_solve1 : forall h m i,
       A (den (OSolve KMom 1) [h; m] Uv3) i = mold h i + dt * ((t0 h i + t1 h i) / 2) }.

  (* parts of a stage around the momentum equation *)
  Definition st_a (o : copt) (i : nat) : list op := store_elevation o i ++ when (o_frc2 o) [OForce2 i].
  Definition st_b (o : copt) (i : nat) : list op :=
    compute_mesh_velocity o i ++ flat_map (prepare o i) (tracers o) ++ when (o_frc3 o) [OForce3 KMom i].
  Definition st_c (o : copt) (i : nat) : list op :=
    [ODomain] ++ moving_mesh o ++ flat_map (fun k => OSolve k i :: limiter o k) (tracers o).
  Definition st_d (o : copt) (last : bool) : list op :=
    if last then implicit_part o ++ baroclinicity o ++ [OW] ++ turbulence o ++ stabilization o
    else baroclinicity o ++ [OW].

  Lemma stage_split : forall o last i, o_limu o = false ->
    rk_stage o last i = st_a o i ++ [OSweStage i] ++ st_b o i ++ [OPrep KMom i] ++ st_c o i
                        ++ [OSolve KMom i] ++ coupling ++ st_d o last.
  Proof.
    intros o last i Hu. unfold rk_stage, st_a, st_b, st_c, st_d.
    rewrite equations_split, !flat_map_app. cbn [flat_map]. rewrite !app_nil_r.
    unfold prepare at 2. unfold limiter at 2. rewrite Hu. cbn [when].
    rewrite <- !app_assoc. cbn [app]. reflexivity.
  Qed.

  Lemma st_a_keeps : forall o i k, (k = Uv3 \/ k = Split \/ k = Hid KMom) -> keeps k (st_a o i).
  Proof.
    intros o i k Hk. unfold st_a, store_elevation.
    apply keeps_app; apply keeps_when; destruct Hk as [H|[H|H]]; subst k; reflexivity.
  Qed.

  Lemma st_b_keeps : forall o i k, (k = Uv3 \/ k = Split \/ k = Hid KMom) -> keeps k (st_b o i).
  Proof.
    intros o i k Hk. unfold st_b, compute_mesh_velocity.
    apply keeps_app; [|apply keeps_app].
    - apply keeps_when; destruct Hk as [H|[H|H]]; subst k; reflexivity.
    - apply keeps_flat. intros q Hq. pose proof (tracers_not_mom o q Hq) as Hn. unfold prepare.
      apply keeps_app; [apply keeps_when|]; destruct Hk as [H|[H|H]]; subst k; destruct q; try reflexivity; contradiction.
    - apply keeps_when; destruct Hk as [H|[H|H]]; subst k; reflexivity.
  Qed.

  Lemma limiter_keeps : forall o q k, q <> KMom -> (k = Uv3 \/ k = Split \/ k = Hid KMom) -> keeps k (limiter o q).
  Proof.
    intros o q k Hn Hk. unfold limiter. destruct q; try contradiction; try reflexivity;
      apply keeps_when; destruct Hk as [H|[H|H]]; subst k; reflexivity.
  Qed.

  Lemma st_c_keeps : forall o i k, (k = Uv3 \/ k = Split \/ k = Hid KMom) -> keeps k (st_c o i).
  Proof.
    intros o i k Hk. unfold st_c, moving_mesh.
    apply keeps_app; [|apply keeps_app].
    - destruct Hk as [H|[H|H]]; subst k; reflexivity.
    - apply keeps_when; destruct Hk as [H|[H|H]]; subst k; reflexivity.
    - apply keeps_flat. intros q Hq. pose proof (tracers_not_mom o q Hq) as Hn.
      change (OSolve q i :: limiter o q) with ([OSolve q i] ++ limiter o q).
      apply keeps_app; [|now apply limiter_keeps].
      destruct Hk as [H|[H|H]]; subst k; destruct q; try reflexivity; contradiction.
  Qed.

  Lemma st_d_keeps : forall o last k, (k = Split \/ k = Hid KMom) -> keeps k (st_d o last).
  Proof.
    intros o last k Hk.
    assert (H : (forallb (fun x => negb (fmem Split (outs x))) (st_d o last)
                 && forallb (fun x => negb (fmem (Hid KMom) (outs x))) (st_d o last)) = true).
    { destruct last; revert o; refine (for_all_opts_spec (fun o => _) _); vm_cast_no_check (eq_refl true). }
    apply andb_true_iff in H. destruct H as [H1 H2]. destruct Hk; subst k; assumption.
  Qed.

  Lemma st_d_keeps_uv : forall o last, last && o_impl o = false -> keeps Uv3 (st_d o last).
  Proof.
    intros o last Hl.
    assert (H : (last && o_impl o) || forallb (fun x => negb (fmem Uv3 (outs x))) (st_d o last) = true).
    { clear Hl. destruct last; revert o; refine (for_all_opts_spec (fun o => _) _); vm_cast_no_check (eq_refl true). }
    rewrite Hl in H. exact H.
  Qed.

  (* one stage, seen from the momentum equation *)
  Lemma stage_mean : forall o last i s, o_limu o = false ->
    let s1 := run (st_a o i ++ [OSweStage i] ++ st_b o i) s in
    let h := val den dt gamma (OPrep KMom i) s1 (Hid KMom) in
    let s' := run (rk_stage o last i) s in
    s1 Uv3 = s Uv3 /\ s1 (Hid KMom) = s (Hid KMom) /\
    exists m,
    (forall j, dt * s' Split j = A (den (OSolve KMom i) [h; m] Uv3) j) /\
    s' (Hid KMom) = den (OSolve KMom i) [h; m] (Hid KMom) /\
    (last && o_impl o = false -> forall j, A (s' Uv3) j = 0).
  Proof.
    intros o last i s Hu s1 h s'.
    assert (Hs : forall k, (k = Uv3 \/ k = Split \/ k = Hid KMom) -> s1 k = s k).
    { intros k Hk. unfold s1. rewrite !run_app.
      rewrite (run_keeps k) by (now apply st_b_keeps).
      rewrite (run_keeps k [OSweStage i]) by (destruct Hk as [H|[H|H]]; subst k; reflexivity).
      apply run_keeps. now apply st_a_keeps. }
    split; [apply Hs; tauto|]. split; [apply Hs; tauto|].
    pose (s2 := run (st_c o i) (exec s1 (OPrep KMom i))).
    assert (Hh : s2 (Hid KMom) = h).
    { unfold s2. rewrite run_keeps by (apply st_c_keeps; tauto). apply exec_in. cbn. tauto. }
    pose (s3 := exec s2 (OSolve KMom i)).
    assert (E3 : s3 Uv3 = den (OSolve KMom i) [h; s2 Mesh] Uv3).
    { unfold s3. rewrite exec_in by (cbn; tauto). cbn [val ins map]. now rewrite Hh. }
    assert (E4 : s3 (Hid KMom) = den (OSolve KMom i) [h; s2 Mesh] (Hid KMom)).
    { unfold s3. rewrite exec_in by (cbn; tauto). cbn [val ins map]. now rewrite Hh. }
    assert (Es : s' = run (st_d o last) (run coupling s3)).
    { unfold s'. rewrite stage_split by exact Hu. rewrite !run_app. unfold s3, s2, s1. rewrite !run_app. reflexivity. }
    destruct (C61_coupling_values s3) as [M0 [_ [Sp _]]].
    exists (s2 Mesh). split; [|split].
    - intros j. rewrite Es, (run_keeps Split) by (apply st_d_keeps; tauto). rewrite Sp, E3. reflexivity.
    - rewrite Es, run_keeps by (apply st_d_keeps; tauto). rewrite coupling_hid. exact E4.
    - intros Hl j. rewrite Es, run_keeps by (now apply st_d_keeps_uv). apply M0.
  Qed.

  Lemma split_unwritten : forall o,
    unwritten_at (eq_op (OSweStage 1)) Split (rk_stage o true 1) true = true.
  Proof. refine (for_all_opts_spec (fun o => _) _). vm_cast_no_check (eq_refl true). Qed.

(* CoupledTwoStageRK.  The forcing the second 2D stage sees is the depth
   averaged tendency of the first 3D stage, plus the depth average found in
   uv_3d at the beginning of the step (left there by the vertical diffusion and
   bottom friction of the previous step) over dt.  The forcing the first 2D
   stage of the next step sees is the depth averaged tendency of the whole
   step, plus the same term. *)
Theorem C61_rk_forcing_of_2d_mode : forall mold t0 t1 L o s p1 p2,
  rk_momentum mold t0 t1 L -> o_limu o = false ->
  rk_stage o true 1 = p1 ++ OSweStage 1 :: p2 ->
  exists a0 a1,
    let s0 := run (rk_stage o false 0) s in
    let s' := run (rk_step o) s in
    nth 0 a0 (fun _ => 0) = s Uv3 /\ nth 0 a1 (fun _ => 0) = s0 Uv3 /\ (forall i, A (s0 Uv3) i = 0) /\
    (forall i, run p1 s0 Split i = A (s Uv3) i / dt + L a0 i) /\
    (forall i, s' Split i = A (s Uv3) i / dt + (L a0 i + L a1 i) / 2) /\
    (o_impl o = false -> forall i, A (s' Uv3) i = 0).
Proof.
  intros mold t0 t1 L o s p1 p2 HM Hu Hp.
  destruct (stage_mean o false 0 s Hu) as [U0 [H0 [m0 [S0 [K0 Z0]]]]].
  pose (s0 := run (rk_stage o false 0) s).
  destruct (stage_mean o true 1 s0 Hu) as [U1 [H1 [m1 [S1 [K1 Z1]]]]].
  set (b0 := run (st_a o 0 ++ [OSweStage 0] ++ st_b o 0) s) in *.
  set (b1 := run (st_a o 1 ++ [OSweStage 1] ++ st_b o 1) s0) in *.
  exists (mom_args b0), (mom_args b1).
  set (h0 := val den dt gamma (OPrep KMom 0) b0 (Hid KMom)) in *.
  set (h1 := val den dt gamma (OPrep KMom 1) b1 (Hid KMom)) in *.
  fold s0 in S0, K0, Z0. fold s0.
  assert (Er : run (rk_step o) s = run (rk_stage o true 1) s0) by (unfold rk_step; now rewrite run_app).
  cbv zeta. rewrite Er.
  split; [|split; [|split; [|split; [|split]]]].
  - unfold mom_args. cbn [ins eq_reads app map nth]. exact U0.
  - unfold mom_args. cbn [ins eq_reads app map nth]. exact U1.
  - apply Z0. reflexivity.
  - intros i.
    assert (Hc : run p1 s0 Split = s0 Split).
    { exact (unwritten_at_sound den dt gamma (eq_op (OSweStage 1)) Split _ true s0 s0 p1 (OSweStage 1) p2
               (fun _ => eq_refl) (split_unwritten o) Hp (proj2 (eq_op_spec _ _) eq_refl)). }
    rewrite Hc.
    destruct (rm_solve0 _ _ _ _ HM h0 m0 i) as [E _].
    destruct (rm_prep0 _ _ _ _ HM b0 i) as [E1 E2]. fold h0 in E1, E2.
    specialize (S0 i). rewrite E, E1, E2, U0 in S0.
    apply (Rmult_eq_reg_l dt); [|exact Hdt]. rewrite S0. field. exact Hdt.
  - intros i.
    destruct (rm_solve0 _ _ _ _ HM h0 m0 i) as [_ [F1 F2]].
    destruct (rm_prep0 _ _ _ _ HM b0 i) as [E1 E2]. fold h0 in E1, E2.
    destruct (rm_prep1 _ _ _ _ HM b1 i) as [G1 [G2 G3]]. fold h1 in G1, G2, G3.
    specialize (S1 i). rewrite (rm_solve1 _ _ _ _ HM) in S1.
    rewrite G1, G2, G3, H1, K0, F1, F2, E1, E2, U0 in S1.
    apply (Rmult_eq_reg_l dt); [|exact Hdt]. rewrite S1. field. exact Hdt.
  - intros Hi. apply Z1. now rewrite Hi.
Qed.

(* assign_initial_conditions(uv_2d=u, uv_3d=v): the depth average of v goes to
   the 2D equations once more, as a forcing, although uv_2d already holds u.
   With the documented meaning (v the velocity, u its depth average) the first
   step adds u/dt to the forcing of the 2D momentum equation: in its second
   stage, and again (through split_residual_2d) in the first stage of the next
   step, so that u is counted twice. *)
Theorem C61_initial_velocity_counted_twice_refuted : forall mold t0 t1 L o c s p1 p2,
  rk_momentum mold t0 t1 L -> o_limu o = false ->
  ic_uv2 c = true -> ic_uv3 c = true ->
  (forall i, A (den (OIc Uv3) [s Mesh] Uv3) i = den (OIc Uv2) [s Mesh] Uv2 i) ->
  rk_stage o true 1 = p1 ++ OSweStage 1 :: p2 ->
  exists a0 a1,
    let si := run (ic_prog o c) s in
    si Uv2 = den (OIc Uv2) [s Mesh] Uv2 /\
    (forall i, run p1 (run (rk_stage o false 0) si) Split i = si Uv2 i / dt + L a0 i) /\
    (forall i, run (rk_step o) si Split i = si Uv2 i / dt + (L a0 i + L a1 i) / 2).
Proof.
  intros mold t0 t1 L o c s p1 p2 HM Hu H2 H3 Hm Hp.
  assert (E : run (ic_prog o c) s Uv2 = den (OIc Uv2) [s Mesh] Uv2 /\
              run (ic_prog o c) s Uv3 = den (OIc Uv3) [s Mesh] Uv3).
  { unfold ic_prog. rewrite H2, H3. cbn [negb when].
    pose (r := when (ic_salt c && o_salt o) [OIc Salt]
        ++ when (ic_temp c && o_temp o) [OIc Temp]
        ++ when (has_gls o) (when (ic_tke c) [OIc Tke] ++ when (ic_psi c) [OIc Psi] ++ [OTurbInit])
        ++ when (o_ale o) ([ODomain] ++ moving_mesh o)
        ++ init_prog o ++ all_dependencies o ++ when (o_turb o) [OTurbInit]).
    assert (K : forall k, (k = Uv2 \/ k = Uv3) -> keeps k r).
    { intros k Hk. unfold r, init_prog, all_dependencies, moving_mesh, baroclinicity, stabilization.
      repeat (apply keeps_app || apply keeps_when); destruct Hk; subst k; reflexivity. }
    fold r. rewrite !app_nil_r. rewrite !run_app. rewrite !(run_keeps _ r) by (apply K; tauto).
    destruct (ic_elev c); split; reflexivity. }
  destruct E as [E2 E3].
  destruct (C61_rk_forcing_of_2d_mode mold t0 t1 L o (run (ic_prog o c) s) p1 p2 HM Hu Hp)
    as [a0 [a1 [_ [_ [_ [F1 [F2 _]]]]]]].
  exists a0, a1. cbv zeta. split; [exact E2|]. split.
  - intros i. rewrite F1, E3, Hm, E2. reflexivity.
  - intros i. rewrite F2, E3, Hm, E2. reflexivity.
Qed.

  (* --------------------------------------------------------------- *)
  (* Leap-frog scheme                                                  *)
  (* --------------------------------------------------------------- *)
  (* LeapFrogAM3 on a fixed mesh, depth averaged: mold reads off the depth
     average of the solution of the previous step, rhs the depth averaged right
     hand side. *)
  Record lf_momentum (mold rhs : vec -> vec) (L : list vec -> vec) : Prop := {
    lm_pred : forall s i,
       A (val den dt gamma (OPredict KMom) s Uv3) i =
         (1/2 - 2*gamma) * mold (s (Hid KMom)) i + (1/2 + 2*gamma) * A (s Uv3) i
         + (1 - 2*gamma) * (dt * L (mom_args s) i);
    lm_shift : forall s i, mold (val den dt gamma (OPredict KMom) s (Hid KMom)) i = A (s Uv3) i;
    lm_rhs : forall s i, let h := val den dt gamma (OEvalRhs KMom) s (Hid KMom) in
       mold h i = mold (s (Hid KMom)) i /\ rhs h i = L (mom_args s) i;
    lm_corr : forall h m i,
       A (den (OCorrect KMom) [h; m] Uv3) i = mold h i + dt * rhs h i;
    lm_keep : forall h m i, mold (den (OCorrect KMom) [h; m] (Hid KMom)) i = mold h i }.

  Definition lf_a (o : copt) : list op :=
    when (o_ale o) [OWZero] ++ flat_map (fun k => OPredict k :: limiter o k) (tracers o).
  Definition lf_b (o : copt) : list op :=
    baroclinicity o ++ when (o_ale o) [OProj] ++ [OUvOld] ++ when (o_frc2 o) [OForce2 0].
  Definition lf_c (o : copt) : list op :=
    when (o_ale o) [OMeshVelLF] ++ [OUvNew] ++ [ODomOld; ODomHalf; OUvHalf].
  Definition lf_d (o : copt) : list op :=
    [OUvRestore; OW] ++ baroclinicity o ++ map OEvalRhs (tracers o).
  Definition lf_e (o : copt) : list op :=
    [ODomain] ++ moving_mesh o ++ flat_map (fun k => OCorrect k :: limiter o k) (tracers o).
  Definition lf_f (o : copt) : list op :=
    baroclinicity o ++ [OW] ++ stabilization o.

  Lemma lf_split : forall o, o_limu o = false -> o_impl o = false ->
    lf_step o = lf_a o ++ [OPredict KMom] ++ coupling ++ lf_b o ++ [OSweStep] ++ lf_c o
                ++ coupling ++ lf_d o ++ [OEvalRhs KMom] ++ lf_e o ++ [OCorrect KMom] ++ coupling ++ lf_f o.
  Proof.
    intros o Hu Hi. unfold lf_step, lf_a, lf_b, lf_c, lf_d, lf_e, lf_f.
    rewrite equations_split, !flat_map_app, map_app. cbn [flat_map map]. rewrite !app_nil_r.
    unfold limiter at 2 4. rewrite Hu, Hi. cbn [when].
    rewrite <- !app_assoc. cbn [app]. reflexivity.
  Qed.

  Lemma keeps_map : forall k (f : eqn -> op) l, (forall q, In q l -> keeps k [f q]) -> keeps k (map f l).
  Proof.
    intros k f l. induction l as [|q r IH]; intros H; [reflexivity|].
    change (map f (q :: r)) with ([f q] ++ map f r).
    apply keeps_app; [apply H; now left | apply IH; intros q' Hq; apply H; now right].
  Qed.

  Lemma lf_parts_keep : forall o k, (k = Uv3 \/ k = Hid KMom) ->
    keeps k (lf_a o) /\ keeps k (lf_b o) /\ keeps k (lf_c o) /\ keeps k (lf_d o) /\ keeps k (lf_e o) /\ keeps k (lf_f o).
  Proof.
    intros o k Hk. unfold lf_a, lf_b, lf_c, lf_d, lf_e, lf_f, baroclinicity, moving_mesh, stabilization.
    assert (Hk' : k = Uv3 \/ k = Split \/ k = Hid KMom) by tauto.
    repeat split; repeat (apply keeps_app || apply keeps_when);
      try (destruct Hk; subst k; reflexivity).
    - apply keeps_flat. intros q Hq. pose proof (tracers_not_mom o q Hq) as Hn.
      change (OPredict q :: limiter o q) with ([OPredict q] ++ limiter o q).
      apply keeps_app; [|now apply limiter_keeps].
      destruct Hk; subst k; destruct q; try reflexivity; contradiction.
    - apply keeps_map. intros q Hq. pose proof (tracers_not_mom o q Hq) as Hn.
      destruct Hk; subst k; destruct q; try reflexivity; contradiction.
    - apply keeps_flat. intros q Hq. pose proof (tracers_not_mom o q Hq) as Hn.
      change (OCorrect q :: limiter o q) with ([OCorrect q] ++ limiter o q).
      apply keeps_app; [|now apply limiter_keeps].
      destruct Hk; subst k; destruct q; try reflexivity; contradiction.
  Qed.

  Lemma lf_b_split : forall o, keeps Split (lf_b o).
  Proof.
    intros o. unfold lf_b, baroclinicity. repeat (apply keeps_app || apply keeps_when); reflexivity.
  Qed.

  Lemma lf_f_split : forall o, keeps Split (lf_f o).
  Proof.
    intros o. unfold lf_f, baroclinicity, stabilization. repeat (apply keeps_app || apply keeps_when); reflexivity.
  Qed.

(* CoupledLeapFrogAM3 with explicit vertical diffusion.  Neither uv_3d nor the
   stored old solution carries a depth average from step to step; the 2D
   equations are forced with (1 - 2 gamma) times the depth averaged tendency,
   evaluated at the beginning of the step.  The depth averaged tendency of the
   corrected step, which uv_3d loses at the end of the step, reaches the 2D
   mode nowhere: split_residual_2d is overwritten before the 2D equations are
   solved again. *)
Theorem C61_leapfrog_forcing_of_2d_mode : forall mold rhs L o s,
  lf_momentum mold rhs L -> o_limu o = false -> o_impl o = false ->
  (forall i, A (s Uv3) i = 0) -> (forall i, mold (s (Hid KMom)) i = 0) ->
  exists p1 p2 a0 a1,
    let s' := run (lf_step o) s in
    lf_step o = p1 ++ OSweStep :: p2 /\
    nth 0 a0 (fun _ => 0) = s Uv3 /\
    (forall i, run p1 s Split i = (1 - 2*gamma) * L a0 i) /\
    (forall i, s' Split i = L a1 i) /\
    (forall i, A (s' Uv3) i = 0) /\ (forall i, mold (s' (Hid KMom)) i = 0).
Proof.
  intros mold rhs L o s HM Hu Hi Z0 Zo.
  destruct (lf_parts_keep o Uv3 (or_introl eq_refl)) as [Ua [Ub [Uc [Ud [Ue Uf]]]]].
  destruct (lf_parts_keep o (Hid KMom) (or_intror eq_refl)) as [Ha [Hb [Hc [Hd [He Hf]]]]].
  pose (s1 := run (lf_a o) s).
  assert (E1 : s1 Uv3 = s Uv3) by (now apply run_keeps).
  assert (E1h : s1 (Hid KMom) = s (Hid KMom)) by (now apply run_keeps).
  pose (s2 := exec s1 (OPredict KMom)).
  assert (E2 : s2 Uv3 = val den dt gamma (OPredict KMom) s1 Uv3) by (apply exec_in; cbn; tauto).
  assert (E2h : s2 (Hid KMom) = val den dt gamma (OPredict KMom) s1 (Hid KMom)) by (apply exec_in; cbn; tauto).
  pose (s3 := run (lf_b o) (run coupling s2)).
  destruct (C61_coupling_values s2) as [M2 [_ [P2 _]]].
  pose (s4 := run (lf_c o) (exec s3 OSweStep)).
  assert (E4 : s4 Uv3 = run coupling s2 Uv3).
  { unfold s4. rewrite run_keeps by exact Uc. rewrite exec_out by (cbn; intuition discriminate).
    unfold s3. now apply run_keeps. }
  assert (E4h : s4 (Hid KMom) = s2 (Hid KMom)).
  { unfold s4. rewrite run_keeps by exact Hc. rewrite exec_out by (cbn; intuition discriminate).
    unfold s3. rewrite run_keeps by exact Hb. apply coupling_hid. }
  pose (s5 := run (lf_d o) (run coupling s4)).
  assert (E5h : s5 (Hid KMom) = s2 (Hid KMom)).
  { unfold s5. rewrite run_keeps by exact Hd. rewrite coupling_hid. exact E4h. }
  pose (s6 := run (lf_e o) (exec s5 (OEvalRhs KMom))).
  assert (E6h : s6 (Hid KMom) = val den dt gamma (OEvalRhs KMom) s5 (Hid KMom)).
  { unfold s6. rewrite run_keeps by exact He. apply exec_in. cbn. tauto. }
  pose (s7 := exec s6 (OCorrect KMom)).
  assert (E7 : s7 Uv3 = den (OCorrect KMom) [s6 (Hid KMom); s6 Mesh] Uv3)
    by (unfold s7; rewrite exec_in by (cbn; tauto); reflexivity).
  assert (E7h : s7 (Hid KMom) = den (OCorrect KMom) [s6 (Hid KMom); s6 Mesh] (Hid KMom))
    by (unfold s7; rewrite exec_in by (cbn; tauto); reflexivity).
  destruct (C61_coupling_values s7) as [M7 [_ [P7 _]]].
  assert (Es : run (lf_step o) s = run (lf_f o) (run coupling s7)).
  { rewrite lf_split by assumption. rewrite !run_app. reflexivity. }
  exists (lf_a o ++ [OPredict KMom] ++ coupling ++ lf_b o),
    (lf_c o ++ coupling ++ lf_d o ++ [OEvalRhs KMom] ++ lf_e o ++ [OCorrect KMom] ++ coupling ++ lf_f o),
    (mom_args s1), (mom_args s5).
  cbv zeta. rewrite Es.
  assert (Hold : forall i, mold (s6 (Hid KMom)) i = A (s Uv3) i).
  { intros i. destruct (lm_rhs _ _ _ HM s5 i) as [Ro _]. rewrite <- E6h in Ro.
    rewrite Ro, E5h, E2h, (lm_shift _ _ _ HM), E1. reflexivity. }
  split; [|split; [|split; [|split; [|split]]]].
  - rewrite lf_split by assumption. rewrite <- !app_assoc. reflexivity.
  - unfold mom_args. cbn [ins eq_reads app map nth]. exact E1.
  - intros i. rewrite !run_app. fold s1. change (run [OPredict KMom] s1) with s2.
    rewrite (run_keeps Split) by apply lf_b_split.
    apply (Rmult_eq_reg_l dt); [|exact Hdt]. rewrite P2, E2, (lm_pred _ _ _ HM), E1, E1h, Z0, Zo. ring.
  - intros i. rewrite (run_keeps Split) by apply lf_f_split.
    apply (Rmult_eq_reg_l dt); [|exact Hdt]. rewrite P7, E7, (lm_corr _ _ _ HM), Hold, Z0.
    destruct (lm_rhs _ _ _ HM s5 i) as [_ Rr]. rewrite <- E6h in Rr. rewrite Rr. ring.
  - intros i. rewrite run_keeps by exact Uf. apply M7.
  - intros i. rewrite run_keeps by exact Hf. rewrite coupling_hid, E7h, (lm_keep _ _ _ HM), Hold. apply Z0.
Qed.

(* With a steady depth averaged tendency l and gamma = 1/12 the leap-frog
   coupling therefore forces the 2D mode with 5/6 of it, in every step. *)
Theorem C61_leapfrog_full_forcing_refuted : forall mold rhs L (l : vec) o n s,
  lf_momentum mold rhs L -> o_limu o = false -> o_impl o = false -> gamma = 1/12 ->
  (forall a i, L a i = l i) ->
  (forall i, A (s Uv3) i = 0) -> (forall i, mold (s (Hid KMom)) i = 0) ->
  let sn := run (List.concat (repeat (lf_step o) n)) s in
  exists p1 p2, lf_step o = p1 ++ OSweStep :: p2 /\
    forall i, run p1 sn Split i = 5/6 * l i.
Proof.
  intros mold rhs L l o n s HM Hu Hi Hg HL Z0 Zo sn.
  assert (I : (forall i, A (sn Uv3) i = 0) /\ (forall i, mold (sn (Hid KMom)) i = 0)).
  { unfold sn. clear sn. revert s Z0 Zo. induction n as [|n IH]; intros s Z0 Zo; [cbn; auto|].
    cbn [repeat List.concat]. rewrite run_app.
    destruct (C61_leapfrog_forcing_of_2d_mode mold rhs L o s HM Hu Hi Z0 Zo)
      as [p1 [p2 [a0 [a1 [_ [_ [_ [_ [Z1 Z2]]]]]]]]].
    apply IH; assumption. }
  destruct I as [I1 I2].
  destruct (C61_leapfrog_forcing_of_2d_mode mold rhs L o sn HM Hu Hi I1 I2)
    as [p1 [p2 [a0 [a1 [Hp [_ [F _]]]]]]].
  exists p1, p2. split; [exact Hp|]. intros i. rewrite F, HL, Hg. field.
Qed.

End Coupling.

(* ------------------------------------------------------------------ *)
(* A concrete case: water columns of two levels, levels 2i and 2i+1 of  *)
(* column i; both momentum integrators; the depth averaged tendency is  *)
(* the pressure gradient field.                                         *)
(* ------------------------------------------------------------------ *)
Definition exA (u : vec) : vec := fun i => (u (2*i)%nat + u (2*i + 1)%nat) / 2.
Definition exX (v : vec) : vec := fun j => v (Nat.div2 j).

Definition arg (n : nat) (l : list vec) : vec := nth n l (fun _ => 0).

(* the private storage: entries 2i of the first half etc. interleaved by 4 *)
Definition pack (a b c : vec) : vec := fun n =>
  match Nat.modulo n 4 with O => a (n/4)%nat | 1%nat => b (n/4)%nat | 2%nat => c (n/4)%nat | _ => 0 end.
Definition un0 (h : vec) : vec := fun i => h (4*i)%nat.
Definition un1 (h : vec) : vec := fun i => h (4*i + 1)%nat.
Definition un2 (h : vec) : vec := fun i => h (4*i + 2)%nat.

Lemma un0_pack : forall a b c i, un0 (pack a b c) i = a i.
Proof.
  intros. unfold un0, pack. replace (4*i)%nat with (i*4)%nat by lia.
  rewrite Nat.mod_mul, Nat.div_mul by lia. reflexivity.
Qed.
Lemma un1_pack : forall a b c i, un1 (pack a b c) i = b i.
Proof.
  intros. unfold un1, pack. replace (4*i + 1)%nat with (1 + i*4)%nat by lia.
  rewrite Nat.mod_add, Nat.div_add by lia. reflexivity.
Qed.
Lemma un2_pack : forall a b c i, un2 (pack a b c) i = c i.
Proof.
  intros. unfold un2, pack. replace (4*i + 2)%nat with (2 + i*4)%nat by lia.
  rewrite Nat.mod_add, Nat.div_add by lia. reflexivity.
Qed.

Lemma exA_X : forall v i, exA (exX v) i = v i.
Proof.
  intros v i. unfold exA, exX. replace (2*i+1)%nat with (S (2*i)) by lia.
  rewrite Nat.div2_double, Nat.div2_succ_double. field.
Qed.

Definition exL (a : list vec) : vec := arg 6 a.

Section Example_.
  Variables dt gamma : R.

  Definition exden (o : op) (a : list vec) (f : fld) : vec :=
    match o, f with
    | OAvg, _ => exX (exA (arg 0 a))
    | OExtract, _ => fun i => arg 0 a (2*i)%nat
    | OCopyDav, _ | OCopyUv, _ => exX (arg 0 a)
    | OPrep KMom 0, _ => pack (exA (arg 0 a)) (exL a) (fun _ => 0)
    | OSolve KMom 0, Hid _ => arg 0 a
    | OSolve KMom 0, _ => exX (fun i => un0 (arg 0 a) i + dt * un1 (arg 0 a) i)
    | OPrep KMom _, _ => pack (un0 (arg 10 a)) (un1 (arg 10 a)) (exL a)
    | OSolve KMom _, _ => exX (fun i => un0 (arg 0 a) i + dt * ((un1 (arg 0 a) i + un2 (arg 0 a) i) / 2))
    | OPredict KMom, Hid _ => pack (exA (arg 0 a)) (fun _ => 0) (fun _ => 0)
    | OPredict KMom, _ => exX (fun i => (1/2 - 2*gamma) * un0 (arg 10 a) i
                                       + (1/2 + 2*gamma) * exA (arg 0 a) i + (1 - 2*gamma) * (dt * exL a i))
    | OEvalRhs KMom, _ => pack (un0 (arg 10 a)) (exL a) (fun _ => 0)
    | OCorrect KMom, Hid _ => arg 0 a
    | OCorrect KMom, _ => exX (fun i => un0 (arg 0 a) i + dt * un1 (arg 0 a) i)
    | OIc Uv2, _ => fun _ => 3
    | OIc Uv3, _ => fun j => if Nat.even j then 2 else 4
    | _, _ => fun _ => 0
    end.

  Example C61_columns_hypotheses :
    averaging exA exX /\ coupling_solvers exden exA exX /\
    rk_momentum exden dt gamma exA un0 un1 un2 exL /\
    lf_momentum exden dt gamma exA un0 un1 exL.
  Proof.
    split; [|split; [|split]].
    - split.
      + intros. unfold exA. field.
      + intros. unfold exA. field.
      + exact exA_X.
    - split.
      + intros u m e i. cbn [exden arg nth]. unfold exX. rewrite Nat.div2_double. reflexivity.
      + reflexivity.
      + reflexivity.
    - split.
      + intros s i. cbv zeta. cbn [val exden]. split; [apply un0_pack | apply un1_pack].
      + intros h m i. cbn [exden arg nth]. split; [apply exA_X | split; reflexivity].
      + intros s i. cbv zeta. cbn [val exden]. rewrite un0_pack, un1_pack, un2_pack. repeat split.
      + intros h m i. cbn [exden arg nth]. apply exA_X.
    - split.
      + intros s i. cbn [val exden]. rewrite exA_X. reflexivity.
      + intros s i. cbn [val exden]. apply un0_pack.
      + intros s i. cbv zeta. cbn [val exden]. rewrite un0_pack, un1_pack. split; reflexivity.
      + intros h m i. cbn [exden arg nth]. apply exA_X.
      + intros h m i. reflexivity.
  Qed.

  (* initial velocity with levels 2 and 4 and depth average 3 *)
  Example C61_initial_velocity_example : forall m i,
    exA (exden (OIc Uv3) [m] Uv3) i = exden (OIc Uv2) [m] Uv2 i.
  Proof.
    intros m i. cbn [exden]. unfold exA.
    assert (E1 : Nat.even (2*i) = true) by (rewrite Nat.even_mul; reflexivity).
    assert (E2 : Nat.even (2*i + 1) = false) by (rewrite Nat.even_add, E1; reflexivity).
    rewrite E1, E2. lra.
  Qed.

End Example_.

(* All options on; the assembly theorem applies at each of the five equations *)
Definition full : copt := Build_copt true true true true true true true true true true true true false.

Example C61_full_step : List.length (rk_step full) = 70%nat /\ List.length (lf_step full) = 69%nat.
Proof. split; reflexivity. Qed.

Example C61_assembly_case : exists p1 p2, rk_stage full true 1 = p1 ++ OPrep KTke 1 :: p2 /\ (5 < List.length p1)%nat.
Proof.
  exists (firstn 9 (rk_stage full true 1)), (skipn 10 (rk_stage full true 1)).
  split; [reflexivity | cbn; lia].
Qed.

Print Assumptions C61_rk_step_consistent.
Print Assumptions C61_leapfrog_step_consistent.
Print Assumptions C61_initial_conditions_consistent.
Print Assumptions C61_initial_depth_average_refuted.
Print Assumptions C61_rk_stages_ready.
Print Assumptions C61_rk_assembly.
Print Assumptions C61_rk_solve.
Print Assumptions C61_rk_assembly_with_forcings_refuted.
Print Assumptions C61_leapfrog_assembly.
Print Assumptions C61_leapfrog_correct.
Print Assumptions C61_rk_schedule.
Print Assumptions C61_leapfrog_schedule.
Print Assumptions C61_milestones.
Print Assumptions C61_forcings3d_calls.
Print Assumptions C61_initialised_once.
Print Assumptions C61_unsolved_tracers_kept.
Print Assumptions C61_run_consistent.
Print Assumptions C61_set_dt.
Print Assumptions C61_set_dt_fraction_refuted.
Print Assumptions C61_coupling_values.
Print Assumptions C61_rk_forcing_of_2d_mode.
Print Assumptions C61_initial_velocity_counted_twice_refuted.
Print Assumptions C61_leapfrog_forcing_of_2d_mode.
Print Assumptions C61_leapfrog_full_forcing_refuted.
