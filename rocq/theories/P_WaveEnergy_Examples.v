(** C84: concrete cases. *)
From Coq Require Import Reals List String Bool Arith Lia Lra FunctionalExtensionality.
From Verif Require Import Forms_Model Forms_Spec Forms_Proofs P_SWE
  RK_Model RK_Spec RK_Proofs RK_Proofs4 TimeInt_Model TimeInt_Spec TimeInt_Proofs P_RungeKutta P_TimeInt
  Cfl_Model Stable_Spec P_Energy Galerkin_Model Galerkin_Proofs P_Galerkin WaveEnergy_Spec WaveEnergy_Proofs
  P_WaveEnergy Forms_Examples.
Import ListNotations.
Open Scope R_scope.

(** Two cells, depth 10, gravity 10, rotation, viscosity, Manning friction,
    linear equations, discontinuous elevation. *)
Definition pond_of (man lin : option (nat -> R)) : swe_env nat nat nat :=
  mk_env two_cells 10 1000 (fun _ _ => 10) (fun _ => 10) (fun _ _ => 10) (fun _ => 10)
    (fun _ => 1) (fun _ => Closed) (fun _ => None) true true false (Some 1)
    (Some (affine (fun _ => 1) (fun _ => 0) (fun _ => 0)))
    false false (fun _ _ => 4) (fun _ => 4) (fun _ => (0, 0))
    (Some (fun _ => 1 / 10000)) None None None man None 0.4 0
    lin None None None [].
Definition pond : swe_env nat nat nat := pond_of (Some (fun _ => 1 / 50)) None.

Lemma pond_free : forall man lin, free_waves (pond_of man lin) 10.
Proof. intros. repeat split; try (cbn; lra); intros; discriminate. Qed.
Lemma pond_one : one_drag pond.
Proof. split; [right|left]; reflexivity. Qed.
Lemma pond_passive : passive_drag pond.
Proof. split; [|split; [|split]]; cbn; intros; try discriminate. contradiction. Qed.

Lemma p0_gauss : gauss_space cells2 two_cells.
Proof.
  intro u. unfold gauss_sv, gauss, dx, dS, ds, integral, divv, unb, dot2, vf, vb, vv, normal, eta_of, uv_of.
  cbn -[Rplus Rmult Rminus Rdiv Ropp IZR]. unfold p0, affine, edge, unit_of; cbn -[Rplus Rmult Rminus Rdiv Ropp IZR].
  field.
Qed.

Lemma flat_grad : forall u f s, grad_f (uv_of cells2 u) f s = ((0, 0), (0, 0)).
Proof.
  intros u f s. unfold grad_f, uv_of. cbn -[Rplus Rmult Rminus Rdiv Ropp IZR].
  unfold add2, scal2; cbn [fst snd]. destruct s; cbn [fst snd]; f_equal; f_equal; ring.
Qed.
Lemma flat_grad_v : forall u p, grad_v (uv_of cells2 u) p = ((0, 0), (0, 0)).
Proof.
  intros u p. unfold grad_v, uv_of. cbn -[Rplus Rmult Rminus Rdiv Ropp IZR].
  unfold add2, scal2; cbn [fst snd]. f_equal; f_equal; ring.
Qed.

Lemma pond_visc : forall man lin, proper_viscosity cells2 (pond_of man lin).
Proof.
  intros man lin nu Hn. injection Hn as <-. split; [intro; cbn; lra|].
  split; [intros f s; destruct s; cbn; lra|]. split; [intro; cbn; lra|].
  split.
  - intros f _. unfold sigma_max; cbn. destruct (Rgt_dec 4 4); lra.
  - intro u. cbv zeta.
    rewrite (dS_zero (e_mesh (pond_of man lin))).
    + rewrite dx_zero; [lra|]. intros p _. rewrite flat_grad_v. unfold inner_t, dot2; cbn [fst snd]. ring.
    + intros f _. unfold avg_t. rewrite !flat_grad. unfold inner_t, dot2, scal_t, add_t, add2, scal2; cbn [fst snd].
      unfold Rdiv; ring.
Qed.

Lemma cells2_independent : independent cells2 two_cells 10 10.
Proof.
  intros u Hu x Hx.
  assert (E : mech_energy cells2 two_cells 10 10 u
    = 5 * (u (UV 0) * u (UV 0) + u (UV 1) * u (UV 1) + u (UV 2) * u (UV 2) + u (UV 3) * u (UV 3)
           + u (ETA 0) * u (ETA 0) + u (ETA 1) * u (ETA 1))).
  { unfold mech_energy, dx, integral, dot2, vv, eta_of, uv_of.
    cbn -[Rplus Rmult Rminus Rdiv Ropp Rinv IZR]. unfold unit_of; cbn -[Rplus Rmult Rminus Rdiv Ropp Rinv IZR]. field. }
  rewrite E in Hu. clear E.
  assert (Sq : forall a : R, 0 <= a * a) by (intro a; apply (Rle_0_sqr a)).
  assert (Z : forall a : R, a * a = 0 -> a = 0) by (intros a Ha; destruct (Rmult_integral _ _ Ha); assumption).
  pose proof (Sq (u (UV 0))). pose proof (Sq (u (UV 1))). pose proof (Sq (u (UV 2))). pose proof (Sq (u (UV 3))).
  pose proof (Sq (u (ETA 0))). pose proof (Sq (u (ETA 1))).
  destruct x as [j|i]; cbn in Hx; apply Z.
  - destruct j as [|[|[|[|j]]]]; [lra|lra|lra|lra|lia].
  - destruct i as [|[|i]]; [lra|lra|lia].
Qed.

(** Water moving in one cell, the other at rest: energy is lost in every step,
    and never gained in any number of steps. *)
Example C84_example : forall solve uf dt ts1 ts2 (s : @tst dof unit unit) keys,
  exact_solver solve -> 0 <= dt ->
  let step := cn_advance keys (fun _ => KExpr) (Res cells2 (fun _ _ _ => 0) (fun (_ _ : string -> option unit) (_ : unit) => pond))
                (swe_mass cells2 two_cells (fun _ _ => 0)) solve dt uf (1/2) true in
  let run := fun ts => tsol (fold_left (fun s t => step t s) ts s) in
  mech_energy cells2 two_cells 10 10 (run (ts1 ++ ts2)%list) <= mech_energy cells2 two_cells 10 10 (run ts1) /\
  mech_energy cells2 two_cells 10 10 moving = 45 /\ 0 < flux_loss cells2 pond 10 moving.
Proof.
  intros solve uf dt ts1 ts2 s keys Hs Hdt step run. split; [|split].
  - apply (C84_never_gains cells2 pond 10 (fun _ _ _ => 0) keys (fun _ => KExpr) solve dt uf (1/2) true ts1 ts2 s Hs).
    + split; [apply pond_free|]. split; [apply pond_one|]. intros _. split; [apply two_weights|apply p0_gauss].
    + left; reflexivity.
    + apply two_weights.
    + apply two_normals.
    + apply pond_passive.
    + apply pond_visc.
    + apply cells2_independent.
    + exact Hdt.
    + lra.
  - unfold mech_energy, dx, integral, dot2, vv, eta_of, uv_of, moving, unit_of. cbn -[Rplus Rmult Rminus Rdiv Ropp Rinv IZR]. unfold unit_of; cbn -[Rplus Rmult Rminus Rdiv Ropp Rinv IZR]. field.
  - assert (E1 : sqrt (10 / 10) = 1) by (replace (10/10) with 1 by field; apply sqrt_1).
    assert (E2 : flux_loss cells2 pond 10 moving = 200).
    { unfold flux_loss. change (e_eta_dg pond) with true. change (e_g pond) with 10. cbv iota.
      rewrite E1.
      unfold dS, ds, integral, jump_vn, jump_n, unb, dot2, vf, vb, eta_of, uv_of, moving, unit_of, normal.
      cbn -[Rplus Rmult Rminus Rdiv Ropp Rinv IZR sqrt]. unfold unit_of, edge; cbn -[Rplus Rmult Rminus Rdiv Ropp Rinv IZR sqrt].
      field. }
    rewrite E2. lra.
Qed.

(** The same with linear drag and an implicit scheme; the mass matrix of these
    functions is the identity. *)
Definition pond2 : swe_env nat nat nat := pond_of None (Some (fun _ => 1 / 100)).

Example C84_dirk_example : forall solve uf dt ts1 ts2 (s : @st dof unit),
  exact_solver solve -> 0 <= dt ->
  let Fx := fun u => swe_vector cells2 pond2 (fun _ _ _ => 0) u u in
  let run := fun ts => sol (fold_left (fun s t => dirk_advance DIRK22Tab (fun (_ : unit) u _ => Fx u) solve false dt uf t s) ts s) in
  mech_energy cells2 two_cells 10 10 (run (ts1 ++ ts2)%list) <= mech_energy cells2 two_cells 10 10 (run ts1).
Proof.
  intros solve uf dt ts1 ts2 s Hs Hdt Fx run.
  apply (C84_dirk_never_gains cells2 pond2 10 (fun _ _ _ => 0) unit "DIRK22" DIRK22Tab None).
  - cbn. do 3 right. left. reflexivity.
  - discriminate.
  - apply pond_free.
  - repeat split.
  - intros _. apply p0_gauss.
  - apply two_weights.
  - apply two_normals.
  - split; [|split; [|split]]; cbn; intros; try discriminate; [|contradiction].
    match goal with H : Some _ = Some _ |- _ => injection H as <- end. lra.
  - apply pond_visc.
  - apply cells2_independent.
  - intros u x. apply cells2_mass.
  - exact Hs.
  - exact Hdt.
Qed.

(** Continuous elevation (spanned by 1 and the x coordinate), velocity in the x
    direction constant in each cell, rotation, no friction. *)
Definition xcoord : sfield nat nat nat :=
  affine (fun c => match c with O => -1/2 | _ => 1/2 end) (fun _ => 1) (fun _ => 0).
Definition channel_space : @space nat nat nat :=
  mk_space 2 (fun i => match i with O => const_s 1 | _ => xcoord end)
    2 (fun j => mk_vf (p0 (fun c => match c with O => unit_of 0 j | _ => unit_of 1 j end)) (const_s 0)).
Definition channel : swe_env nat nat nat :=
  mk_env two_cells 10 1000 (fun _ _ => 10) (fun _ => 10) (fun _ _ => 10) (fun _ => 10)
    (fun _ => 1) (fun _ => Closed) (fun _ => None) false true false (Some 1) None
    false false (fun _ _ => 4) (fun _ => 4) (fun _ => (0, 0))
    (Some (fun _ => 1 / 10000)) None None None None None 0.4 0
    None None None None [].

Lemma channel_free : free_waves channel 10.
Proof. repeat split; try (cbn; lra); intros; discriminate. Qed.
Lemma channel_lossless : lossless channel.
Proof. repeat split. Qed.

(** the surface tilted, the water at rest *)
Definition tilted (x : dof) : R := match x with ETA 1 => 1 | _ => 0 end.

(** The bound 0.5 of the option [implicitness_theta] is sharp: with any smaller
    value the energy of this case grows in the first step, however small the
    time step. *)
Theorem C84_theta_bound_sharp : forall theta dt new,
  theta < 1/2 -> 0 < dt ->
  theta_step (swe_mass channel_space two_cells (fun _ _ => 0))
    (fun v => swe_vector channel_space channel (fun _ _ _ => 0) v v)
    (fun v => swe_vector channel_space channel (fun _ _ _ => 0) v v) dt theta tilted new ->
  mech_energy channel_space two_cells 10 10 tilted < mech_energy channel_space two_cells 10 10 new.
Proof.
  intros theta dt new Hth Hdt Hst.
  assert (Hf := channel_free). destruct channel_lossless as (L1 & L2 & L3 & Hsd).
  pose proof Hsd as (D1 & D2 & D3 & _).
  pose proof (step_identity channel_space channel 10 (fun _ _ _ => 0) dt theta false tilted new new Hf) as Q.
  cbv iota in Q. rewrite no_loss in Q by exact channel_lossless.
  change (e_mesh channel) with two_cells in Q. change (e_g channel) with 10 in Q.
  rewrite Q; clear Q; [|split; left; assumption|rewrite L1; discriminate|exact Hst|right; exact Hsd|reflexivity].
  assert (HP : 0 < mech_energy channel_space two_cells 10 10 (plus_k new (-1) tilted)).
  2:{ assert (0 < (1 - 2 * theta) * mech_energy channel_space two_cells 10 10 (plus_k new (-1) tilted))
        by (apply Rmult_lt_0_compat; [lra|exact HP]). lra. }
  pose proof (Hst (UV 0)) as S0. pose proof (Hst (UV 1)) as S1.
  pose proof (Hst (ETA 0)) as S2. pose proof (Hst (ETA 1)) as S3.
  Ltac ev H := cbn [swe_mass swe_vector channel_space n_eta n_uv Nat.ltb Nat.leb phi psi] in H;
    unfold momentum_residual, continuity_residual, hu_div, quadratic_drag, drag_coefficient, pressure_gradient, advection, viscosity,
      coriolis, wind, atmospheric, linear_drag, boundary_drag, bottom_drag_3d, momentum_source, turbine_drag, continuity_source,
      channel, dx, dS, ds, integral, uv_of, eta_of, tilted, dot2, scal2, vv, hv, xcoord, p0, affine, unit_of in H;
    cbn -[Rplus Rmult Rminus Rdiv Ropp Rinv IZR sqrt] in H.
  ev S0. ev S1. ev S2. ev S3.
  assert (HE : mech_energy channel_space two_cells 10 10 (plus_k new (-1) tilted)
     = 5 * (new (UV 0) * new (UV 0) + new (UV 1) * new (UV 1))
       + 5 * (2 * new (ETA 0) * new (ETA 0) + 1/2 * (new (ETA 1) - 1) * (new (ETA 1) - 1))).
  { unfold mech_energy, dx, integral, dot2, vv, eta_of, uv_of, tilted, plus_k, xcoord, p0, affine, unit_of.
    cbn -[Rplus Rmult Rminus Rdiv Ropp Rinv IZR]. field. }
  rewrite HE. clear HE Hst.
  set (a := new (UV 0)) in *. set (b := new (UV 1)) in *. set (c := new (ETA 0)) in *. set (d := new (ETA 1)) in *.
  assert (A0 : a = - 10 * dt * (theta * d + (1 - theta))) by (apply Rminus_diag_uniq; lra).
  assert (A3 : d - 1 = 20 * theta * dt * (a + b)) by (apply Rminus_diag_uniq; lra).
  destruct (Req_dec d 1) as [->|Hd].
  - assert (a < 0) by (rewrite A0; nra). assert (0 < a * a) by nra.
    pose proof (Rle_0_sqr b). pose proof (Rle_0_sqr c). unfold Rsqr in *. lra.
  - assert (0 < (d - 1) * (d - 1)) by (assert (d - 1 <> 0) by lra; nra).
    pose proof (Rle_0_sqr a). pose proof (Rle_0_sqr b). pose proof (Rle_0_sqr c). unfold Rsqr in *. lra.
Qed.

Example C84_channel_example : forall solve uf dt ts (s : @tst dof unit unit) keys,
  exact_solver solve -> 0 <= dt ->
  let step := cn_advance keys (fun _ => KExpr) (Res channel_space (fun _ _ _ => 0) (fun (_ _ : string -> option unit) (_ : unit) => channel))
                (swe_mass channel_space two_cells (fun _ _ => 0)) solve dt uf (1/2) false in
  mech_energy channel_space two_cells 10 10 (tsol (fold_left (fun s t => step t s) ts s))
  = mech_energy channel_space two_cells 10 10 (tsol s).
Proof.
  intros solve uf dt ts s keys Hs Hdt step.
  assert (Hin : independent channel_space two_cells 10 10).
  { intros u Hu x Hx.
    assert (E : mech_energy channel_space two_cells 10 10 u
      = 5 * (u (UV 0) * u (UV 0) + u (UV 1) * u (UV 1)) + 5 * (2 * (u (ETA 0) * u (ETA 0)) + 1/2 * (u (ETA 1) * u (ETA 1)))).
    { unfold mech_energy, dx, integral, dot2, vv, eta_of, uv_of, xcoord, p0, affine, unit_of.
      cbn -[Rplus Rmult Rminus Rdiv Ropp Rinv IZR]. unfold unit_of; cbn -[Rplus Rmult Rminus Rdiv Ropp Rinv IZR]. field. }
    rewrite E in Hu. clear E.
    assert (Sq : forall a : R, 0 <= a * a) by (intro a; apply (Rle_0_sqr a)).
    assert (Z : forall a : R, a * a = 0 -> a = 0) by (intros a Ha; destruct (Rmult_integral _ _ Ha); assumption).
    pose proof (Sq (u (UV 0))). pose proof (Sq (u (UV 1))). pose proof (Sq (u (ETA 0))). pose proof (Sq (u (ETA 1))).
    destruct x as [j|i]; cbn in Hx; apply Z.
    - destruct j as [|[|j]]; [lra|lra|lia].
    - destruct i as [|[|i]]; [lra|lra|lia]. }
  assert (Hh : 0 <= 1/2) by lra.
  destruct (C84_lossless channel_space channel 10 (fun _ _ _ => 0) keys (fun _ => KExpr) solve dt uf (1/2) false ts s Hs
    channel_free channel_lossless two_weights two_normals Hin Hdt Hh) as [Q _].
  exact (Q eq_refl).
Qed.

Print Assumptions C84_theta_budget.
Print Assumptions C84_never_gains.
Print Assumptions C84_lossless.
Print Assumptions C84_dirk_never_gains.
Print Assumptions C84_theta_bound_sharp.
