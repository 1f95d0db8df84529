(* C61: the coupled 2D-3D time step.

   Every diagnostic field a step leaves behind (mesh position, vertical
   velocity, internal pressure gradient, depth averaged velocity, Smagorinsky
   viscosity) is the one that belongs to the prognostic fields it leaves
   behind; the same holds whenever a right hand side is assembled; tracers are
   assembled on the old mesh and solved on the new one; every active equation
   is advanced exactly once per stage. *)
From Coq Require Import Reals List Bool Arith Lia String ZArith QArith Qcanon.
From Verif Require Import Num Coupled3d_Model Coupled3d_Proofs.
Import ListNotations.
Local Open Scope R_scope.

(* ------------------------------------------------------------------ *)
(* Specification                                                        *)
(* ------------------------------------------------------------------ *)
Section Spec.
  Variable den : op -> list vec -> fld -> vec.

  (* w_3d is the vertical velocity of the present velocity on the present mesh *)
  Definition w_current (s : state) : Prop := s W = den OW [s Uv3; s Dav3; s Mesh; s Frc3] W.
  (* int_pg_3d belongs to the present salinity, temperature and mesh *)
  Definition pg_current (s : state) : Prop :=
    s Pg = den OBaroc [s Salt; s Temp; s Mesh; s Ecg; s Frc3] Pg.
  (* uv_dav_3d is the present uv_2d *)
  Definition dav_current (s : state) : Prop := s Dav3 = den OCopyUv [s Uv2; s Mesh] Dav3.
  (* the mesh follows the present 2D elevation *)
  Definition mesh_current (s : state) : Prop :=
    s Ecg = den OProj [s Elev2] Ecg /\ s Mesh = den OMesh [s Ecg] Mesh.

  Record consistent (o : copt) (s : state) : Prop := {
    cs_elev : s Domain = s Elev2;
    cs_mesh : o_ale o = true -> mesh_current s;
    cs_w : w_current s;
    cs_pg : o_baroc o = true -> pg_current s;
    cs_smag : o_smag o = true -> s Smag = den OStab [s Uv3; s Mesh] Smag }.
End Spec.

(* ------------------------------------------------------------------ *)
(* After a step                                                         *)
(* ------------------------------------------------------------------ *)
Definition end_check (p : copt -> list op) (o : copt) : bool :=
  flow ODomain Domain (p o) false
  && (negb (o_ale o) || (flow OProj Ecg (p o) false && flow OMesh Mesh (p o) false))
  && flow OW W (p o) false
  && (negb (o_baroc o) || flow OBaroc Pg (p o) false)
  && (negb (o_smag o) || flow OStab Smag (p o) false).

Lemma end_check_sound : forall den dt gamma p o s, end_check p o = true ->
  consistent den o (run den dt gamma (p o) s).
Proof.
  intros den dt gamma p o s H. unfold end_check in H.
  repeat (apply andb_true_iff in H; let H2 := fresh "H" in destruct H as [H H2]).
  assert (F : forall x k, wf x k = true -> flow x k (p o) false = true ->
                          fresh den dt gamma x k (run den dt gamma (p o) s)).
  { intros x k Hw Hf. apply flow_sound with (now := false); auto. discriminate. }
  split.
  - apply (F ODomain Domain eq_refl H).
  - intros Ha. rewrite Ha in *. cbn in H3. apply andb_true_iff in H3. destruct H3 as [H4 H5].
    split; [apply (F OProj Ecg eq_refl H4) | apply (F OMesh Mesh eq_refl H5)].
  - apply (F OW W eq_refl H2).
  - intros Hb. rewrite Hb in *. apply (F OBaroc Pg eq_refl H1).
  - intros Hb. rewrite Hb in *. apply (F OStab Smag eq_refl H0).
Qed.

(* CoupledTwoStageRK: whatever the sub-solvers do and whatever the state
   before the step, afterwards all diagnostics are current. *)
Theorem C61_rk_step_consistent : forall den dt gamma o s,
  let s' := run den dt gamma (rk_step o) s in
  consistent den o s' /\ dav_current den s'.
Proof.
  intros den dt gamma o s s'. split.
  - apply end_check_sound.
    exact (for_all_opts_spec (end_check rk_step) ltac:(vm_cast_no_check (eq_refl true)) o).
  - pose proof (for_all_opts_spec (fun o => flow OCopyUv Dav3 (rk_step o) false)
                  ltac:(vm_cast_no_check (eq_refl true)) o) as H.
    apply (flow_sound den dt gamma OCopyUv Dav3 _ false s eq_refl); [discriminate | exact H].
Qed.

(* The same for CoupledLeapFrogAM3. *)
Theorem C61_leapfrog_step_consistent : forall den dt gamma o s,
  let s' := run den dt gamma (lf_step o) s in
  consistent den o s' /\ dav_current den s'.
Proof.
  intros den dt gamma o s s'. split.
  - apply end_check_sound.
    exact (for_all_opts_spec (end_check lf_step) ltac:(vm_cast_no_check (eq_refl true)) o).
  - pose proof (for_all_opts_spec (fun o => flow OCopyUv Dav3 (lf_step o) false)
                  ltac:(vm_cast_no_check (eq_refl true)) o) as H.
    apply (flow_sound den dt gamma OCopyUv Dav3 _ false s eq_refl); [discriminate | exact H].
Qed.


(* assign_initial_conditions leaves the diagnostics current too, whichever
   initial values are given ... *)
Theorem C61_initial_conditions_consistent : forall den dt gamma o c s,
  consistent den o (run den dt gamma (ic_prog o c) s).
Proof.
  intros den dt gamma o c s.
  apply (end_check_sound den dt gamma (fun o => ic_prog o c) o s).
  pose proof (for_all_opts_spec
    (end_check (fun o => all_dependencies o ++ when (o_turb o) [OTurbInit]))
    ltac:(vm_cast_no_check (eq_refl true)) o) as H.
  assert (T : forall x k, flow x k (all_dependencies o ++ when (o_turb o) [OTurbInit]) false = true ->
                          flow x k (ic_prog o c) false = true).
  { intros x k Hx. unfold ic_prog. rewrite !app_assoc. rewrite <- (app_assoc _ (all_dependencies o)).
    now apply flow_tail. }
  unfold end_check in *.
  repeat (apply andb_true_iff in H; let H2 := fresh "H" in destruct H as [H H2]).
  rewrite (T _ _ H), (T _ _ H2). cbn [andb].
  destruct (o_ale o); cbn [negb orb] in *.
  - apply andb_true_iff in H3. destruct H3 as [H3 H4]. rewrite (T _ _ H3), (T _ _ H4). cbn [andb].
    destruct (o_baroc o); cbn [negb orb] in *; [rewrite (T _ _ H1)|];
      destruct (o_smag o); cbn [negb orb andb] in *; try rewrite (T _ _ H0); reflexivity.
  - cbn [andb]. destruct (o_baroc o); cbn [negb orb] in *; [rewrite (T _ _ H1)|];
      destruct (o_smag o); cbn [negb orb andb] in *; try rewrite (T _ _ H0); reflexivity.
Qed.

Lemma frame_when : forall k b p, forallb (fun x => negb (fmem k (outs x))) p = true ->
  forallb (fun x => negb (fmem k (outs x))) (when b p) = true.
Proof. intros k [] p H; [exact H | reflexivity]. Qed.

(* ... but when uv_3d is given, uv_2d does not reach uv_dav_3d: the field keeps
   the value it had (zero on a new solver), so the velocity the first stage
   works with, uv_3d + uv_dav_3d, contains nothing of uv_2d.  (With uv_2d alone
   uv_dav_3d is the copy of uv_2d.) *)
Theorem C61_initial_depth_average_refuted : forall den dt gamma o c s,
  let s' := run den dt gamma (ic_prog o c) s in
  (ic_uv3 c = true -> s' Dav3 = s Dav3) /\
  (ic_uv2 c = true -> ic_uv3 c = false -> o_ale o = false -> dav_current den s').
Proof.
  intros den dt gamma o c s s'. split.
  - intros H3. apply run_frame. unfold ic_prog. rewrite H3. cbn [negb].
    rewrite !forallb_app.
    pose proof (for_all_opts_spec (fun o => forallb (fun x => negb (fmem Dav3 (outs x)))
      (when (o_ale o) ([ODomain] ++ moving_mesh o) ++ init_prog o ++ all_dependencies o
       ++ when (o_turb o) [OTurbInit])) ltac:(vm_cast_no_check (eq_refl true)) o) as H.
    cbv beta in H. rewrite !forallb_app in H. rewrite H.
    rewrite !frame_when by (try reflexivity; cbn [when app]; rewrite ?forallb_app, ?frame_when; reflexivity).
    reflexivity.
  - intros H2 H3 Ha.
    assert (F : flow OCopyUv Dav3 (ic_prog o c) false = true).
    { unfold ic_prog. rewrite H2, H3, Ha. cbn [negb when].
      rewrite flow_app. rewrite flow_app. cbn [app].
      assert (E : forall n, flow OCopyUv Dav3 [OIc Uv2; OIc Dav2; OCopyUv] n = true) by (intros []; reflexivity).
      rewrite E.
      assert (K : forall o2, flow OCopyUv Dav3 (init_prog o2 ++ all_dependencies o2 ++ when (o_turb o2) [OTurbInit])
                   (o_ale o2 || true) = true \/ o_ale o2 = true).
      { intros o2. apply orb_true_iff. revert o2.
        refine (for_all_opts_spec (fun o2 => _ || o_ale o2) _). vm_cast_no_check (eq_refl true). }
      specialize (K o). rewrite Ha in K. destruct K as [K|K]; [|discriminate]. cbn [orb] in K.
      rewrite !flow_app. rewrite !flow_app in K.
      destruct (ic_salt c && o_salt o); destruct (ic_temp c && o_temp o); destruct (has_gls o);
        destruct (ic_tke c); destruct (ic_psi c); cbn [when app]; exact K. }
    apply (flow_sound den dt gamma OCopyUv Dav3 _ false s eq_refl); [discriminate | exact F].
Qed.

(* ------------------------------------------------------------------ *)
(* While a right hand side is assembled                                 *)
(* ------------------------------------------------------------------ *)
Definition is_prep (x : op) : bool := match x with OPrep _ _ => true | _ => false end.
Definition is_rhs (x : op) : bool := match x with OEvalRhs _ => true | _ => false end.
Definition is_rhs_or_predict (x : op) : bool :=
  match x with OEvalRhs _ | OPredict _ => true | _ => false end.

Definition is_solve (x : op) : bool := match x with OSolve _ _ => true | _ => false end.

(* What a stage may rely on when it begins: w and the pressure gradient
   belong to the present fields, the mesh to the present elevation. *)
Record stage_ready (den : op -> list vec -> fld -> vec) (o : copt) (s : state) : Prop := {
  sr_w : w_current den s;
  sr_pg : o_baroc o = true -> pg_current den s;
  sr_mesh : o_ale o = true -> mesh_current den s }.

(* Every stage finds this: the first one because the previous step (or
   assign_initial_conditions) left the state consistent, the second one
   because the first stage establishes it. *)
Theorem C61_rk_stages_ready : forall den dt gamma o s,
  (consistent den o s -> stage_ready den o s) /\
  stage_ready den o (run den dt gamma (rk_stage o false 0) s).
Proof.
  intros den dt gamma o s. split.
  - intros [H1 H2 H3 H4 H5]. split; assumption.
  - pose proof (for_all_opts_spec
      (fun o => flow OW W (rk_stage o false 0) false
                && (negb (o_baroc o) || flow OBaroc Pg (rk_stage o false 0) false)
                && (negb (o_ale o) || (flow OProj Ecg (rk_stage o false 0) false
                                       && flow OMesh Mesh (rk_stage o false 0) false)))
      ltac:(vm_cast_no_check (eq_refl true)) o) as H. cbv beta in H.
    repeat (apply andb_true_iff in H; let H2 := fresh "H" in destruct H as [H H2]).
    assert (F : forall x k, wf x k = true -> flow x k (rk_stage o false 0) false = true ->
                fresh den dt gamma x k (run den dt gamma (rk_stage o false 0) s)).
    { intros x k Hw Hf. apply flow_sound with (now := false); auto. discriminate. }
    split.
    + apply (F OW W eq_refl H).
    + intros Hb. rewrite Hb in H1. apply (F OBaroc Pg eq_refl H1).
    + intros Ha. rewrite Ha in H0. cbn in H0. apply andb_true_iff in H0. destruct H0 as [H4 H5].
      split; [apply (F OProj Ecg eq_refl H4) | apply (F OMesh Mesh eq_refl H5)].
Qed.

(* Fields nothing in a stage changes before its right hand sides are assembled *)
Definition kept_fields : list fld := [Salt; Temp; Psi; Tke; Uv3; Dav3; Mesh; W; Pg; Domain; Eddy; Smag].

Definition keep_check (o : copt) : bool :=
  o_frc3 o ||
  forallb (fun li : bool * nat =>
    forallb (fun k => unwritten_at is_prep k (rk_stage o (fst li) (snd li)) true) (Frc3 :: kept_fields))
    [(false, 0%nat); (true, 1%nat)].

Lemma stage_keeps : forall den dt gamma o s last i p1 k j p2 f,
  o_frc3 o = false -> In (last, i) [(false, 0%nat); (true, 1%nat)] ->
  rk_stage o last i = p1 ++ OPrep k j :: p2 -> In f (Frc3 :: kept_fields) ->
  run den dt gamma p1 s f = s f.
Proof.
  intros den dt gamma o s last i p1 k j p2 f Hf Hl Hp Hk.
  pose proof (for_all_opts_spec keep_check ltac:(vm_cast_no_check (eq_refl true)) o) as C.
  unfold keep_check in C. rewrite Hf in C. cbn [orb] in C. rewrite forallb_forall in C.
  specialize (C _ Hl). rewrite forallb_forall in C. specialize (C f Hk). cbn [fst snd] in C.
  exact (unwritten_at_sound den dt gamma is_prep f (rk_stage o last i) true s s p1 (OPrep k j) p2
           (fun _ => eq_refl) C Hp eq_refl).
Qed.

Definition vel_check (o : copt) : bool :=
  negb (o_ale o) ||
  forallb (fun li : bool * nat =>
    flow_at is_prep (OMeshVel (snd li)) WMesh (rk_stage o (fst li) (snd li)) false
    && flow_at is_prep OProj Ecg (rk_stage o (fst li) (snd li)) false
    && unwritten_at is_prep (Est (snd li)) (skipn 2 (rk_stage o (fst li) (snd li))) true)
    [(false, 0%nat); (true, 1%nat)].

(* CoupledTwoStageRK without update_forcings3d: when the right hand side of an
   equation is assembled in stage i (p1 is the part of the stage before that),
   w belongs to the velocity and mesh in use, the pressure gradient to the
   tracers and mesh in use; with a moving mesh, the mesh is still the one of
   the elevation at the beginning of the stage, which has been stored, and the
   mesh velocity is the one computed from the new and the stored elevations. *)
Theorem C61_rk_assembly : forall den dt gamma o s last i p1 p2 k j,
  o_frc3 o = false -> In (last, i) [(false, 0%nat); (true, 1%nat)] ->
  stage_ready den o s ->
  rk_stage o last i = p1 ++ OPrep k j :: p2 ->
  let s1 := run den dt gamma p1 s in
  w_current den s1 /\
  (o_baroc o = true ->
     s1 Pg = den OBaroc [s1 Salt; s1 Temp; s1 Mesh; (if o_ale o then s1 (Est i) else s Ecg); s1 Frc3] Pg) /\
  (o_ale o = true ->
     s1 (Est i) = s Ecg /\
     s1 Mesh = den OMesh [s1 (Est i)] Mesh /\
     s1 Ecg = den OProj [s1 Elev2] Ecg /\
     s1 WMesh = den (OMeshVel i) [s1 Ecg; s1 (Est 0); s1 (Est 1)] WMesh) /\
  (forall f, In f kept_fields -> s1 f = s f).
Proof.
  intros den dt gamma o s last i p1 p2 k j Hf Hl Hr Hp s1.
  assert (K : forall f, In f (Frc3 :: kept_fields) -> s1 f = s f)
    by (intros f Hk; exact (stage_keeps den dt gamma o s last i p1 k j p2 f Hf Hl Hp Hk)).
  assert (A : o_ale o = true ->
     s1 (Est i) = s Ecg /\ s1 Ecg = den OProj [s1 Elev2] Ecg /\
     s1 WMesh = den (OMeshVel i) [s1 Ecg; s1 (Est 0); s1 (Est 1)] WMesh).
  { intros Ha.
    pose proof (for_all_opts_spec vel_check ltac:(vm_cast_no_check (eq_refl true)) o) as C.
    unfold vel_check in C. rewrite Ha in C. cbn [negb orb] in C. rewrite forallb_forall in C.
    specialize (C _ Hl). cbn [fst snd] in C.
    apply andb_true_iff in C. destruct C as [C C3]. apply andb_true_iff in C. destruct C as [C1 C2].
    split; [|split].
    - assert (Hst : rk_stage o last i = OProj :: OStore i :: skipn 2 (rk_stage o last i)).
      { unfold rk_stage, store_elevation. rewrite Ha. reflexivity. }
      rewrite Hst in Hp.
      destruct p1 as [|a p1]; [discriminate|]. destruct p1 as [|b p1]; [discriminate|].
      assert (Ea : a = OProj) by (cbn [app] in Hp; congruence).
      assert (Eb : b = OStore i) by (cbn [app] in Hp; congruence). subst a b.
      assert (Hp' : skipn 2 (rk_stage o last i) = p1 ++ OPrep k j :: p2) by (cbn [app] in Hp; congruence).
      pose (s0 := exec den dt gamma (exec den dt gamma s OProj) (OStore i)).
      assert (E : s1 (Est i) = s0 (Est i)).
      { unfold s1. cbn [run fold_left]. change (run den dt gamma p1 s0 (Est i) = s0 (Est i)).
        exact (unwritten_at_sound den dt gamma is_prep (Est i) _ true s0 s0 p1 (OPrep k j) p2
                 (fun _ => eq_refl) C3 Hp' eq_refl). }
      rewrite E. unfold s0. rewrite exec_in by (left; reflexivity). cbn [val].
      rewrite exec_in by (left; reflexivity). cbn [val ins map].
      symmetry. exact (proj1 (sr_mesh _ _ _ Hr Ha)).
    - apply (flow_at_sound den dt gamma is_prep OProj Ecg (rk_stage o last i) false s p1 (OPrep k j) p2 eq_refl); auto. discriminate.
    - apply (flow_at_sound den dt gamma is_prep (OMeshVel i) WMesh (rk_stage o last i) false s p1 (OPrep k j) p2 eq_refl); auto.
      discriminate. }
  repeat split.
  - unfold w_current. rewrite !K by (cbn; tauto). exact (sr_w _ _ _ Hr).
  - intros Hb. rewrite (K Pg), (K Salt), (K Temp), (K Mesh), (K Frc3) by (cbn; tauto).
    assert (E : (if o_ale o then s1 (Est i) else s Ecg) = s Ecg)
      by (destruct (o_ale o); [exact (proj1 (A eq_refl)) | reflexivity]).
    rewrite E. exact (sr_pg _ _ _ Hr Hb).
  - exact (proj1 (A H)).
  - rewrite (proj1 (A H)). rewrite K by (cbn; tauto). exact (proj2 (sr_mesh _ _ _ Hr H)).
  - exact (proj1 (proj2 (A H))).
  - exact (proj2 (proj2 (A H))).
  - intros f Hk. apply K. now right.
Qed.

Definition solve_check (o : copt) : bool :=
  forallb (fun li : bool * nat =>
    let p := rk_stage o (fst li) (snd li) in
    flow_at is_solve ODomain Domain p false
    && (negb (o_ale o) ||
        (flow_at is_solve OProj Ecg p false && flow_at is_solve OMesh Mesh p false)))
    [(false, 0%nat); (true, 1%nat)].

(* When an equation is solved in stage i, the mesh is the one of the new
   elevation. *)
Theorem C61_rk_solve : forall den dt gamma o s last i p1 p2 k j,
  In (last, i) [(false, 0%nat); (true, 1%nat)] ->
  rk_stage o last i = p1 ++ OSolve k j :: p2 ->
  let s1 := run den dt gamma p1 s in
  s1 Domain = s1 Elev2 /\
  (o_ale o = true -> mesh_current den s1).
Proof.
  intros den dt gamma o s last i p1 p2 k j Hl Hp s1.
  pose proof (for_all_opts_spec solve_check ltac:(vm_cast_no_check (eq_refl true)) o) as C.
  unfold solve_check in C. rewrite forallb_forall in C. specialize (C _ Hl). cbn [fst snd] in C.
  cbv zeta in C. apply andb_true_iff in C. destruct C as [C1 C2].
  assert (F : forall x f, wf x f = true -> flow_at is_solve x f (rk_stage o last i) false = true ->
              fresh den dt gamma x f s1).
  { intros x f Hw Hx.
    apply (flow_at_sound den dt gamma is_solve x f (rk_stage o last i) false s p1 (OSolve k j) p2 Hw); auto. discriminate. }
  split; [exact (F ODomain Domain eq_refl C1)|].
  intros Ha. rewrite Ha in C2. cbn [negb orb] in C2.
  apply andb_true_iff in C2. destruct C2 as [C2 C3].
  split.
  - exact (F OProj Ecg eq_refl C2).
  - exact (F OMesh Mesh eq_refl C3).
Qed.

(* With update_forcings3d the vertical velocity used at an open boundary is
   the one of the boundary values before the callback ran. *)
Theorem C61_rk_assembly_with_forcings_refuted : exists den dt gamma o s p1 p2,
  o_frc3 o = true /\ consistent den o s /\ rk_step o = p1 ++ OPrep KSalt 0 :: p2 /\
  ~ w_current den (run den dt gamma p1 s).
Proof.
  (* w copies the boundary data; the callback sets it to 1 *)
  pose (den := fun (x : op) (l : list vec) (_ : fld) =>
     match x with
     | OForce3 _ _ => fun _ : nat => 1
     | OW => nth 3 l (fun _ => 0)
     | _ => fun _ => 0
     end).
  pose (o := Build_copt true false false false false false false false false false false false true).
  exists den, 1, 0, o, (fun (_ : fld) (_ : nat) => 0).
  exists [OSweStage 0; OForce3 KSalt 0]. eexists.
  split; [reflexivity|]. split; [|split; [reflexivity|]].
  - split; [reflexivity | discriminate | reflexivity | discriminate | discriminate].
  - unfold w_current. cbn. intros H.
    pose proof (f_equal (fun v : vec => v 0%nat) H) as E. cbn in E.
    apply R1_neq_R0. congruence.
Qed.

(* ------------------------------------------------------------------ *)
(* Leap-frog: assembly and correction                                   *)
(* ------------------------------------------------------------------ *)
Definition is_predict (x : op) : bool := match x with OPredict _ => true | _ => false end.
Definition is_correct (x : op) : bool := match x with OCorrect _ => true | _ => false end.

Definition lf_check (o : copt) : bool :=
  flow_at is_rhs_or_predict OW W (lf_step o) true
  && (negb (o_baroc o) || flow_at is_rhs OBaroc Pg (lf_step o) false)
  && (negb (o_ale o) || flow_at is_predict OWZero WMesh (lf_step o) false)
  && (negb (o_ale o) || unwritten_at is_rhs_or_predict Mesh (lf_step o) true)
  && flow_at is_correct ODomain Domain (lf_step o) false
  && (negb (o_ale o) || (flow_at is_correct OProj Ecg (lf_step o) false
                         && flow_at is_correct OMesh Mesh (lf_step o) false)).

Lemma lf_check_all : forall o, lf_check o = true.
Proof. refine (for_all_opts_spec lf_check _). vm_cast_no_check (eq_refl true). Qed.

(* Prediction and the evaluation of the correction's right hand side use the
   old mesh and a vertical velocity that belongs to the velocity and mesh in
   use; prediction has zero mesh velocity; the right hand side uses the
   pressure gradient of the half step tracers. *)
Theorem C61_leapfrog_assembly : forall den dt gamma o s p1 p2 x,
  consistent den o s -> lf_step o = p1 ++ x :: p2 -> is_rhs_or_predict x = true ->
  let s1 := run den dt gamma p1 s in
  w_current den s1 /\
  (o_ale o = true -> s1 Mesh = s Mesh) /\
  (o_ale o = true -> is_predict x = true -> s1 WMesh = (fun _ => 0)) /\
  (o_baroc o = true -> is_rhs x = true -> pg_current den s1).
Proof.
  intros den dt gamma o s p1 p2 x Hc Hp Hx s1.
  pose proof (lf_check_all o) as C. unfold lf_check in C.
  repeat (apply andb_true_iff in C; let H2 := fresh "C" in destruct C as [C H2]).
  split; [|split; [|split]].
  - apply (flow_at_sound den dt gamma is_rhs_or_predict OW W (lf_step o) true s p1 x p2 eq_refl); auto.
    intros _. exact (cs_w _ _ _ Hc).
  - intros Ha. rewrite Ha in C2. cbn [negb orb] in C2.
    exact (unwritten_at_sound den dt gamma is_rhs_or_predict Mesh _ true s s p1 x p2
             (fun _ => eq_refl) C2 Hp Hx).
  - intros Ha Hq. rewrite Ha in C3. cbn [negb orb] in C3.
    apply (flow_at_sound den dt gamma is_predict OWZero WMesh (lf_step o) false s p1 x p2 eq_refl); auto. discriminate.
  - intros Hb Hq. rewrite Hb in C4. cbn [negb orb] in C4.
    apply (flow_at_sound den dt gamma is_rhs OBaroc Pg (lf_step o) false s p1 x p2 eq_refl); auto. discriminate.
Qed.

(* The correction is solved on the mesh of the new elevation. *)
Theorem C61_leapfrog_correct : forall den dt gamma o s p1 p2 k,
  lf_step o = p1 ++ OCorrect k :: p2 ->
  let s1 := run den dt gamma p1 s in
  s1 Domain = s1 Elev2 /\ (o_ale o = true -> mesh_current den s1).
Proof.
  intros den dt gamma o s p1 p2 k Hp s1.
  pose proof (lf_check_all o) as C. unfold lf_check in C.
  repeat (apply andb_true_iff in C; let H2 := fresh "C" in destruct C as [C H2]).
  assert (F : forall x f, wf x f = true -> flow_at is_correct x f (lf_step o) false = true ->
              fresh den dt gamma x f s1).
  { intros x f Hw Hx.
    apply (flow_at_sound den dt gamma is_correct x f (lf_step o) false s p1 (OCorrect k) p2 Hw); auto. discriminate. }
  split; [exact (F ODomain Domain eq_refl C1)|].
  intros Ha. rewrite Ha in C0. cbn [negb orb] in C0. apply andb_true_iff in C0. destruct C0 as [D1 D2].
  split; [exact (F OProj Ecg eq_refl D1) | exact (F OMesh Mesh eq_refl D2)].
Qed.

(* ------------------------------------------------------------------ *)
(* Schedule                                                             *)
(* ------------------------------------------------------------------ *)
Definition concerns (k : eqn) (x : op) : bool :=
  match x with
  | OPrep q _ | OSolve q _ | OPredict q | OEvalRhs q | OCorrect q | OLimit q | OImpl q =>
      if eqn_eq_dec k q then true else false
  | _ => false
  end.

(* is equation k advanced explicitly, limited, advanced implicitly? *)
Definition active (o : copt) (k : eqn) : bool :=
  match k with KSalt => o_salt o | KTemp => o_temp o | KPsi | KTke => o_turb o && o_gls o && o_tadv o | KMom => true end.
Definition limited (o : copt) (k : eqn) : bool :=
  match k with KSalt | KTemp => o_limt o | KMom => o_limu o | _ => false end.
Definition implicit (o : copt) (k : eqn) : bool :=
  match k with
  | KSalt => o_salt o && o_impl o | KTemp => o_temp o && o_impl o | KMom => o_impl o
  | KPsi | KTke => o_turb o && o_gls o
  end.

Definition all_eqns : list eqn := [KSalt; KTemp; KPsi; KTke; KMom].

Lemma all_eqns_in : forall k, In k all_eqns.
Proof. intros []; cbn; tauto. Qed.

(* In a CoupledTwoStageRK step each active equation is assembled, solved and
   (if it has a limiter) limited once per stage, in this order, and its
   vertical diffusion is solved once at the end; inactive equations are left
   alone (psi and tke still get their vertical solve). *)
Theorem C61_rk_schedule : forall o k,
  filter (concerns k) (rk_step o) =
  (if active o k
   then [OPrep k 0; OSolve k 0] ++ (if limited o k then [OLimit k] else [])
        ++ [OPrep k 1; OSolve k 1] ++ (if limited o k then [OLimit k] else [])
   else [])
  ++ (if implicit o k then [OImpl k] else []).
Proof.
  intros o k. apply eq_ops_spec. revert o.
  refine (for_all_opts_spec (fun o => _) _). revert k.
  assert (C : forallb (fun k => for_all_opts (fun o => eq_ops (filter (concerns k) (rk_step o))
    ((if active o k
      then [OPrep k 0; OSolve k 0] ++ (if limited o k then [OLimit k] else [])
           ++ [OPrep k 1; OSolve k 1] ++ (if limited o k then [OLimit k] else [])
      else []) ++ (if implicit o k then [OImpl k] else [])))) all_eqns = true)
    by (vm_cast_no_check (eq_refl true)).
  rewrite forallb_forall in C. intros k. exact (C k (all_eqns_in k)).
Qed.

(* The same for the leap-frog step; without implicit vertical diffusion the
   turbulence model is not updated at all. *)
Theorem C61_leapfrog_schedule : forall o k,
  filter (concerns k) (lf_step o) =
  (if active o k
   then [OPredict k] ++ (if limited o k then [OLimit k] else [])
        ++ [OEvalRhs k; OCorrect k] ++ (if limited o k then [OLimit k] else [])
   else [])
  ++ (if o_impl o && implicit o k then [OImpl k] else []).
Proof.
  intros o k. apply eq_ops_spec. revert o.
  refine (for_all_opts_spec (fun o => _) _). revert k.
  assert (C : forallb (fun k => for_all_opts (fun o => eq_ops (filter (concerns k) (lf_step o))
    ((if active o k
      then [OPredict k] ++ (if limited o k then [OLimit k] else [])
           ++ [OEvalRhs k; OCorrect k] ++ (if limited o k then [OLimit k] else [])
      else []) ++ (if o_impl o && implicit o k then [OImpl k] else [])))) all_eqns = true)
    by (vm_cast_no_check (eq_refl true)).
  rewrite forallb_forall in C. intros k. exact (C k (all_eqns_in k)).
Qed.

(* The 2D mode advances once per stage (once per leap-frog step); the mesh
   moves once per stage (step), after every right hand side and before every
   solve of that stage. *)
Definition milestone (x : op) : bool :=
  match x with OSweStage _ | OSweStep | ODomain | OMesh => true | _ => false end.

Theorem C61_milestones : forall o,
  filter milestone (rk_step o) =
    [OSweStage 0; ODomain] ++ (if o_ale o then [OMesh] else [])
    ++ [OSweStage 1; ODomain] ++ (if o_ale o then [OMesh] else []) /\
  filter milestone (lf_step o) = [OSweStep; ODomain] ++ (if o_ale o then [OMesh] else []).
Proof.
  intros o. split; apply eq_ops_spec; revert o;
    refine (for_all_opts_spec (fun o => _) _); vm_cast_no_check (eq_refl true).
Qed.

(* update_forcings3d runs once per active equation and stage in the two stage
   scheme, and never in the leap-frog scheme. *)
Definition is_force3 (x : op) : bool := match x with OForce3 _ _ => true | _ => false end.

Theorem C61_forcings3d_calls : forall o, o_frc3 o = true ->
  filter is_force3 (rk_step o) =
    map (fun k => OForce3 k 0) (filter (active o) all_eqns) ++
    map (fun k => OForce3 k 1) (filter (active o) all_eqns) /\
  filter is_force3 (lf_step o) = [].
Proof.
  intros o Hf.
  assert (C : negb (o_frc3 o) || (eq_ops (filter is_force3 (rk_step o))
     (map (fun k => OForce3 k 0) (filter (active o) all_eqns) ++
      map (fun k => OForce3 k 1) (filter (active o) all_eqns))
     && eq_ops (filter is_force3 (lf_step o)) []) = true).
  { clear Hf. revert o. refine (for_all_opts_spec (fun o => _) _). vm_cast_no_check (eq_refl true). }
  rewrite Hf in C. cbn [negb orb] in C. apply andb_true_iff in C. destruct C as [C1 C2].
  split; now apply eq_ops_spec.
Qed.

(* the integrators are initialised by the first advance only *)
Definition is_init (x : op) : bool :=
  match x with OInit2 | OInitE _ | OInitI _ => true | _ => false end.

Lemma filter_concat_repeat : forall (f : op -> bool) l n, filter f l = [] ->
  filter f (List.concat (repeat l n)) = [].
Proof.
  intros f l n H. induction n as [|n IH]; [reflexivity|].
  cbn [repeat List.concat]. now rewrite filter_app, H, IH.
Qed.

Theorem C61_initialised_once : forall o step n, In step [rk_step; lf_step] -> (0 < n)%nat ->
  filter is_init (advances o step n) = init_prog o /\
  firstn (List.length (init_prog o)) (advances o step n) = init_prog o.
Proof.
  intros o step n Hs Hn. destruct n as [|n]; [lia|].
  assert (C : filter is_init (rk_step o) = [] /\ filter is_init (lf_step o) = [] /\
              filter is_init (init_prog o) = init_prog o).
  { repeat split; apply eq_ops_spec; revert o;
      refine (for_all_opts_spec (fun o => _) _); vm_cast_no_check (eq_refl true). }
  destruct C as [C1 [C2 C3]].
  assert (Cs : filter is_init (step o) = []) by (destruct Hs as [<-|[<-|[]]]; assumption).
  split.
  - unfold advances. rewrite filter_app, C3, filter_concat_repeat by exact Cs. apply app_nil_r.
  - unfold advances. rewrite firstn_app, firstn_all, Nat.sub_diag, firstn_O. apply app_nil_r.
Qed.

(* salinity and temperature that are not solved for keep their values *)
Theorem C61_unsolved_tracers_kept : forall den dt gamma o step s, In step [rk_step; lf_step] ->
  (o_salt o = false -> run den dt gamma (step o) s Salt = s Salt) /\
  (o_temp o = false -> run den dt gamma (step o) s Temp = s Temp).
Proof.
  intros den dt gamma o step s Hs.
  assert (C : (o_salt o || (forallb (fun x => negb (fmem Salt (outs x))) (rk_step o)
                            && forallb (fun x => negb (fmem Salt (outs x))) (lf_step o)))
              && (o_temp o || (forallb (fun x => negb (fmem Temp (outs x))) (rk_step o)
                            && forallb (fun x => negb (fmem Temp (outs x))) (lf_step o))) = true).
  { revert o. refine (for_all_opts_spec (fun o => _) _). vm_cast_no_check (eq_refl true). }
  apply andb_true_iff in C. destruct C as [C1 C2].
  split; intros H.
  - rewrite H in C1. cbn [orb] in C1. apply andb_true_iff in C1. destruct C1 as [D1 D2].
    apply run_frame. destruct Hs as [<-|[<-|[]]]; assumption.
  - rewrite H in C2. cbn [orb] in C2. apply andb_true_iff in C2. destruct C2 as [D1 D2].
    apply run_frame. destruct Hs as [<-|[<-|[]]]; assumption.
Qed.

(* The elevation, mesh and diagnostics after n >= 1 steps from any start. *)
Theorem C61_run_consistent : forall den dt gamma o step n s, In step [rk_step; lf_step] -> (0 < n)%nat ->
  let s' := run den dt gamma (advances o step n) s in
  consistent den o s' /\ dav_current den s'.
Proof.
  intros den dt gamma o step n s Hs Hn s'. destruct n as [|n]; [lia|].
  assert (E : advances o step (S n) = (init_prog o ++ List.concat (repeat (step o) n)) ++ step o).
  { unfold advances. rewrite <- app_assoc. f_equal.
    clear. induction n as [|n IH]; [cbn; apply app_nil_r|].
    cbn [repeat List.concat] in *. rewrite <- app_assoc. f_equal. exact IH. }
  unfold s'. rewrite E, run_app.
  destruct Hs as [<-|[<-|[]]]; [apply C61_rk_step_consistent | apply C61_leapfrog_step_consistent].
Qed.

(* ------------------------------------------------------------------ *)
(* set_dt                                                               *)
(* ------------------------------------------------------------------ *)
Local Open Scope Qc_scope.

Lemma isclose_refl_int : forall z, isclose (qz z) (qz z) = true.
Proof.
  intros z. unfold isclose. destruct (Qcleb_spec (qabs (qz z - qz z)) (qq 1 100000000 + qq 1 100000 * qabs (qz z)))
    as [H|H]; [reflexivity|]. exfalso. apply H. clear H.
  assert (E : qz z - qz z = 0) by ring. rewrite E.
  assert (Hz : qabs 0 = 0) by reflexivity. rewrite Hz.
  assert (Hp : 0 <= qabs (qz z)).
  { unfold qabs. destruct (Qcltb_spec (qz z) 0) as [Hl|Hl]; [qc | now apply Qcnot_lt_le]. }
  assert (H1 : 0 <= qq 1 100000 * qabs (qz z)).
  { apply qc_mult_nonneg; [|exact Hp]. intros Hc. vm_compute in Hc. discriminate. }
  assert (H2 : 0 <= qq 1 100000000) by (intros Hc; vm_compute in Hc; discriminate).
  qc.
Qed.

Lemma qfloor_qz : forall z, qfloor (qz z) = z.
Proof.
  intros z. unfold qfloor. rewrite (Qfloor_comp _ _ (this_qz z)). apply Qfloor_Z.
Qed.

Fixpoint nodupb (l : list string) : bool :=
  match l with [] => true | x :: r => negb (existsb (String.eqb x) r) && nodupb r end.

Lemma nodupb_spec : forall l, nodupb l = true -> NoDup l.
Proof.
  induction l as [|x r IH]; intros H; [constructor|].
  cbn in H. apply andb_true_iff in H. destruct H as [H1 H2]. constructor; [|auto].
  intros Hi. apply negb_true_iff in H1. assert (E : existsb (String.eqb x) r = true).
  { apply existsb_exists. exists x. split; [exact Hi | apply String.eqb_refl]. }
  congruence.
Qed.

(* Only equal, non-zero time steps are accepted; then every integrator gets
   the step, each once. *)
Theorem C61_set_dt : forall o dt dt_2d,
  (dt_2d <> 0 -> dt = dt_2d -> set_dt o dt dt_2d = DtSet (all_steppers o)) /\
  (forall l, set_dt o dt dt_2d = DtSet l -> dt = dt_2d /\ dt_2d <> 0 /\ l = all_steppers o /\ NoDup l).
Proof.
  intros o dt dt_2d. split.
  - intros Hn ->. unfold set_dt. destruct (Qceqb_spec dt_2d 0) as [H|H]; [contradiction|].
    assert (E : dt_2d / dt_2d = qz 1) by (transitivity 1; [field; exact Hn | reflexivity]).
    rewrite E. assert (R : round_even (qz 1) = 1%Z) by reflexivity. rewrite R.
    rewrite isclose_refl_int. cbn [negb].
    destruct (Qceqb_spec dt_2d dt_2d) as [H2|H2]; [reflexivity | congruence].
  - intros l. unfold set_dt.
    destruct (Qceqb_spec dt_2d 0) as [H|H]; [discriminate|].
    destruct (isclose _ _); cbn [negb]; [|discriminate].
    destruct (Qceqb_spec dt dt_2d) as [H2|H2]; cbn [negb]; [|discriminate].
    intros E. assert (El : l = all_steppers o) by congruence.
    repeat split; try assumption. rewrite El. clear.
    apply nodupb_spec.
    revert o. refine (for_all_opts_spec (fun o => _) _). vm_cast_no_check (eq_refl true).
Qed.

(* the documented case dt_2d = dt/k is refused for k <> 1 *)
Theorem C61_set_dt_fraction_refuted : forall o dt m, dt <> 0 -> (2 <= m)%Z ->
  set_dt o dt (dt / qz m) = DtNotImplemented.
Proof.
  intros o dt m Hd Hm.
  assert (Hz : qz m <> 0).
  { intros H. assert (H2 : qz m = qz 0) by exact H. apply qz_inj in H2. lia. }
  unfold set_dt.
  destruct (Qceqb_spec (dt / qz m) 0) as [H|H].
  { exfalso. apply Hd. transitivity (dt / qz m * qz m); [field; exact Hz | rewrite H; ring]. }
  assert (E : dt / (dt / qz m) = qz m) by (field; split; assumption).
  rewrite E.
  assert (F : qfloor (qz m) = m) by (apply qfloor_qz).
  assert (R : round_even (qz m) = m).
  { unfold round_even. rewrite F. replace (qz m - qz m) with 0 by ring. reflexivity. }
  rewrite R, isclose_refl_int. cbn [negb].
  destruct (Qceqb_spec dt (dt / qz m)) as [H2|H2]; [|reflexivity].
  exfalso. assert (H0 : dt * qz m = dt) by (rewrite H2 at 1; field; exact Hz).
  assert (H3 : dt * (qz m - 1) = 0) by (transitivity (dt * qz m - dt); [ring | rewrite H0; ring]).
  apply Qcmult_integral in H3. destruct H3 as [H3|H3]; [contradiction|].
  assert (H4 : qz m = qz 1) by (transitivity (qz m - 1 + 1); [ring | rewrite H3; reflexivity]).
  apply qz_inj in H4. lia.
Qed.
