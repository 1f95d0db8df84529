(** C80, C82: theorems added after mutation tests: the depth of water with wetting
    and drying, and what the prediction of the leap-frog step is made of. *)
From Coq Require Import Reals List Bool Arith Lia Lra FunctionalExtensionality.
From Verif Require Import Forms_Model Forms_Proofs RK_Model RK_Spec RK_Proofs TimeInt_Model
  Galerkin_Model P_Galerkin Forms3d_Model Forms3d_Spec Galerkin3d_Model Galerkin3d_Proofs P_Galerkin3d.
Open Scope R_scope.

(** The volume of water of C80 is that of a column of depth
    (H + sqrt(H^2 + alpha^2))/2 for H = bathymetry + elevation: always positive,
    never less than H, and H itself without wetting and drying. *)
Theorem C80_wd_depth : forall (V : Type) (a bath : V -> R) p h,
  let H := bath p + h in
  wd_depth true (Some a) bath p h = (H + sqrt (H * H + a p * a p)) / 2 /\
  H <= wd_depth true (Some a) bath p h /\
  (a p <> 0 -> 0 < wd_depth true (Some a) bath p h) /\
  wd_depth true None bath p h = H /\ wd_depth false (Some a) bath p h = bath p.
Proof.
  intros V a bath p h H.
  assert (E : wd_depth true (Some a) bath p h = (H + sqrt (H * H + a p * a p)) / 2).
  { unfold wd_depth, wd_displacement. fold H. lra. }
  pose proof (Rle_0_sqr H) as Q1. pose proof (Rle_0_sqr (a p)) as Q2. unfold Rsqr in *.
  assert (L : Rabs H <= sqrt (H * H + a p * a p)).
  { rewrite <- sqrt_Rsqr_abs. apply sqrt_le_1; unfold Rsqr; lra. }
  pose proof (Rle_abs H) as L1. pose proof (Rle_abs (- H)) as L2. rewrite Rabs_Ropp in L2.
  split; [exact E|]. split; [rewrite E; lra|]. split; [|split; [unfold wd_depth, wd_displacement; fold H; ring|reflexivity]].
  intro Ha. rewrite E. assert (0 < a p * a p).
  { destruct (Rdichotomy _ _ Ha) as [N|N]; [|nra].
    assert (0 < (- a p) * (- a p)) by (apply Rmult_lt_0_compat; lra). lra. }
  assert (L3 : Rabs H < sqrt (H * H + a p * a p)).
  { rewrite <- sqrt_Rsqr_abs. apply sqrt_lt_1; unfold Rsqr; lra. }
  lra.
Qed.

(** At the half step the tracer has 1/3 of the amount of the previous and 2/3 of
    that of the current time level, plus 5/6 of what the fields of the
    prediction let in during a time step. *)
Theorem C82_lf_prediction : forall (V F E Geo : Type) (mesh_of : Geo -> mesh3 V F E) n_dof basis ones,
  (forall g, comb3 n_dof ones (basis g) = const3 1) ->
  forall (msolve limit : Geo -> (nat -> R) -> nat -> R) dt,
  (forall g m, tracer3_mass mesh_of n_dof basis g (msolve g m) = m) ->
  (forall g c, amount mesh_of n_dof basis g (limit g c) = amount mesh_of n_dof basis g c) ->
  forall (K0 : tenv3 V F E) s,
  amount mesh_of n_dof basis (ageo s) (asol (lf_half mesh_of n_dof basis msolve limit dt K0 s))
  = 1/3 * amount mesh_of n_dof basis (ageo s) (aold s) + 2/3 * amount mesh_of n_dof basis (ageo s) (asol s)
    + 5/6 * dt * influx mesh_of n_dof basis (ageo s) K0 (asol s).
Proof.
  intros V F E Geo mesh_of n_dof basis ones Hone msolve limit dt Hsolve Hlimit K0 s.
  set (m := tracer3_mass mesh_of n_dof basis (ageo s)).
  set (r := tracer3_vector mesh_of n_dof basis (ageo s) K0 (asol s)).
  assert (E1 : asol (lf_half mesh_of n_dof basis msolve limit dt K0 s)
     = limit (ageo s) (msolve (ageo s) (fun x => (1/2 - 2 * lf_gamma) * m (aold s) x
         + (1/2 + 2 * lf_gamma) * m (asol s) x + (1 - 2 * lf_gamma) * (dt * r x)))) by reflexivity.
  rewrite E1, Hlimit, <- (mass_rows3 mesh_of n_dof basis ones Hone), Hsolve.
  destruct (rows_linear n_dof ones) as [La Ls]. cbv beta in La, Ls |- *.
  rewrite (La (fun x => (1/2 - 2 * lf_gamma) * m (aold s) x + (1/2 + 2 * lf_gamma) * m (asol s) x)
              (fun x => (1 - 2 * lf_gamma) * (dt * r x))).
  rewrite (La (fun x => (1/2 - 2 * lf_gamma) * m (aold s) x) (fun x => (1/2 + 2 * lf_gamma) * m (asol s) x)).
  rewrite (Ls (1/2 - 2 * lf_gamma) (m (aold s))), (Ls (1/2 + 2 * lf_gamma) (m (asol s))).
  rewrite (Ls (1 - 2 * lf_gamma) (fun x => dt * r x)), (Ls dt r).
  unfold m, r. rewrite (mass_rows3 mesh_of n_dof basis ones Hone), (mass_rows3 mesh_of n_dof basis ones Hone),
    (C82_rows_budget mesh_of n_dof basis ones Hone).
  unfold lf_gamma. field.
Qed.

Example C80_wd_depth_example : wd_depth true (Some (fun _ : unit => 4)) (fun _ => -5) tt 2 = 1.
Proof.
  destruct (C80_wd_depth unit (fun _ => 4) (fun _ => -5) tt 2) as (-> & _).
  replace ((-5 + 2) * (-5 + 2) + 4 * 4) with (5 * 5) by ring. rewrite sqrt_square by lra. field.
Qed.

Print Assumptions C80_wd_depth.
Print Assumptions C82_lf_prediction.
