(** C49: concrete cases. *)
From Coq Require Import Reals List Bool String Lra.
From Verif Require Import Forms_Model Forms_Spec Forms_Proofs Forms_Examples P_SWE.
Import ListNotations.
Open Scope R_scope.
Open Scope list_scope.

Ltac crunch := cbn -[Rplus Rmult Rminus Rdiv Ropp IZR sqrt].

(** A moving, sloping state in a closed basin. *)
Definition flow : vfield nat nat nat :=
  mk_vf (affine (two 1 2) (fun _ => 3) (fun _ => 1)) (affine (two 0 (-1)) (fun _ => 2) (two 1 0)).
Definition surface : sfield nat nat nat := affine (two 0 1) (two 1 2) (fun _ => 0).

Example basin_closed : all_closed basin. Proof. intro k; reflexivity. Qed.
Example basin_unforced : unforced basin.
Proof. repeat split; intros; discriminate. Qed.

Example ex_volume : continuity_residual basin (const_s 1) flow surface flow surface (fun _ => 0) = 0.
Proof. apply C49_volume_conserved; [reflexivity|exact basin_closed|reflexivity]. Qed.

(** The elevation does change locally: the claim is about the sum. *)
Example ex_volume_local :
  continuity_residual (env_of (fun _ => Closed) (fun b _ => b) None)
    (p0 (two 1 0)) flow (p0 (fun _ => 0)) flow (p0 (fun _ => 0)) (fun _ => 0) <> 0.
Proof.
  unfold continuity_residual, hu_div, dx, dS, ds, integral, dot2, jump_n, avg_v, avg, normal, hv, hf, hb,
    add2, scal2, vv, continuity_source, flow, p0, affine, two. crunch.
  replace 0.5 with (1/2) by lra.
  match goal with |- context [sqrt ?x] => generalize (sqrt x) end. intro s.
  apply Rlt_not_eq. ring_simplify. lra.
Qed.

Example ex_rest : forall r, momentum_residual basin flow zero_v (const_s 3) zero_v (const_s 3) = Some r ->
  r = 0.
Proof.
  intro r. apply C49_lake_at_rest_momentum; [exact basin_unforced|intro k; exact I|apply affine_gauss].
Qed.
Example ex_rest_defined :
  momentum_residual basin flow zero_v (const_s 3) zero_v (const_s 3) <> None.
Proof. intro H; discriminate H. Qed.

(** Open boundary with the matching elevation. *)
Example ex_rest_open :
  at_rest_bnd 3 (Open (mk_ext (Some (fun _ : nat => 3)) USym None)).
Proof. repeat split; [intros h H b; inversion H; reflexivity|intros un H; discriminate]. Qed.

(** A sloping surface accelerates the water: the residual is not zero always. *)
Example ex_not_rest :
  pressure_gradient basin (mk_vf (p0 (fun _ => 1)) (p0 (fun _ => 0))) zero_v
    (affine (two 0 1) (fun _ => 1) (fun _ => 0)) (const_s 0) <> 0.
Proof.
  unfold pressure_gradient, dx, dS, ds, integral, dot2, jump_vn, unb, avg, normal, divv, vf, vb, p0, affine, two.
  crunch. unfold dot2. crunch. replace 0.5 with (1/2) by lra.
  apply Rlt_not_eq.
  match goal with |- ?t < 0 => replace t with (-20) end; [lra|].
  field.
Qed.

(** [env_of] uses bathymetry 10 everywhere, so the linear depth is constant. *)
Definition flat_env : swe_env nat nat nat := env_of (fun _ => Closed) (fun _ _ => 10) None.

Example ex_wave : pressure_gradient flat_env (scale_v 10 flow) flow (p0 (two 0 1)) (const_s 0)
  + hu_div flat_env (scale_s 10 (p0 (two 0 1))) flow (p0 (two 0 1)) flow (const_s 0) (fun _ => 0) <= 0.
Proof.
  apply (C49_wave_energy flat_env flow (p0 (two 0 1)) flow (const_s 0) (fun _ => 0) 10);
  try reflexivity; try (cbn; lra); [exact two_weights|intro; reflexivity|apply p0_affine_gauss].
Qed.

(** [un] = 0 does not close a boundary: water leaves through it at half the
    interior velocity. *)
Theorem C49_un_zero_is_no_wall_refuted :
  exists (E : swe_env nat nat nat) uv eta,
    (forall k, resolve (Some [("un"%string, BScalar (fun _ : nat => 0))]) = inl (e_bnd E k)) /\
    e_vsource E = None /\ positive_weights (e_mesh E) /\
    continuity_residual E (const_s 1) uv eta uv eta (fun _ => 0) <> 0.
Proof.
  exists (env_of (fun _ => Open (mk_ext None (UNormal (fun _ => 0)) (Some (fun _ => 0)))) (fun b _ => b) None).
  exists (mk_vf (p0 (two (-1) 0)) (p0 (fun _ => 0))), (p0 (fun _ => 0)).
  split; [intro k; reflexivity|]. split; [reflexivity|]. split; [exact two_weights|].
  rewrite C49_volume_budget by reflexivity.
  unfold ds, integral, hu_flux_b, hb, eta_ext, uv_ext, dot2, add2, sub2, vb, p0, affine, two, edge. crunch.
  replace 0.5 with (1/2) by lra.
  match goal with |- context [sqrt (10 / ?x)] => generalize (sqrt (10 / x)) end. intro s.
  match goal with |- ?t <> 0 => replace t with (-5) end; [lra|field].
Qed.

(** With a viscosity that jumps across a facet the viscous operator is not
    symmetric. *)
Theorem C49_viscosity_symmetric_refuted :
  exists (E : swe_env nat nat nat) u v,
    all_closed E /\ e_grad_depth E = false /\ e_grad_div E = false /\
    viscosity E u v (const_s 0) (const_s 0) <> viscosity E v u (const_s 0) (const_s 0).
Proof.
  exists (env_of (fun _ => Closed) (fun b _ => b) (Some (p0 (two 1 3)))).
  exists (mk_vf (p0 (two 1 0)) (p0 (fun _ => 0))),
         (mk_vf (affine (fun _ => 0) (two 1 0) (fun _ => 0)) (p0 (fun _ => 0))).
  split; [intro; reflexivity|]. split; [reflexivity|]. split; [reflexivity|].
  unfold viscosity, dx, dS, ds, integral, inner_t, stress_of, scal_t, avg_t, add_t, tensor_jump, outer,
    sigma_max, scal2, add2, dot2, avg, normal, grad_v, grad_f, vf, p0, affine, two. crunch.
  destruct (Rgt_dec 4 4) as [H|H]; replace 0.5 with (1/2) by lra;
  match goal with |- ?a <> ?b => assert (a - b <> 0); [|lra] end;
  match goal with |- ?t <> 0 => replace t with (-1/2) by field || replace t with (1/2) by field end; lra.
Qed.
Print Assumptions C49_wave_energy.
Print Assumptions C49_lake_at_rest_momentum.
Print Assumptions C49_viscosity_dissipates.
