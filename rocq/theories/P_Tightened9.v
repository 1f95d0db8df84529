(** Theorems added after wrong programs were found that earlier ones accept. *)
From Coq Require Import Reals List Lra Psatz Lia.
Import ListNotations.
From Verif Require Import TimeStep_Model P_TimeStep.
Open Scope R_scope.

(** C65: the diffusion limit, with its numbers: 1.8 for bdm-dg and 2 otherwise, times 0.6 for
    the leap-frog integrator, times 3 / (8 q^2 + 28 q + 24) with q the degree of the
    velocity *)
Definition diffusion_number (fam : family) (p : nat) (leapfrog : bool) : R :=
  let q := match fam with DGDG => INR p | _ => INR p + 1 end in
  (if leapfrog then 6 / 10 else 1) * (match fam with BDMDG => 18 / 10 | _ => 2 end) *
  (3 / (8 * q ^ 2 + 28 * q + 24)).
Theorem C65_diffusion_limit : forall fam p leapfrog nu rh hs, 0 <= nu -> spread rh hs ->
  (forall h, In h hs -> 0 < h) ->
  (nu = 0 /\ dt_diffusion fam p leapfrog nu rh = Some PInf) \/
  (0 < nu /\ exists d, dt_diffusion fam p leapfrog nu rh = Some (Fin d) /\
     forall x, x <= d <-> forall h, In h hs -> x * nu <= (diffusion_number fam p leapfrog * h) ^ 2).
Proof.
  intros fam p leapfrog nu rh hs Hnu S Hh.
  assert (E : diff_factor fam leapfrog * dx_factor fam p = diffusion_number fam p leapfrog).
  { unfold diff_factor, diffusion_number. destruct (C65_factors p) as (E1 & E2 & E3 & _).
    destruct (C65_factors (Datatypes.S p)) as (E4 & _). rewrite S_INR in E4.
    destruct fam; rewrite ?E2, ?E3, ?E4, ?E1; ring. }
  assert (P : 0 < diffusion_number fam p leapfrog).
  { rewrite <- E. apply Rmult_lt_0_compat; [|apply dx_factor_pos]. unfold diff_factor. destruct fam, leapfrog; lra. }
  unfold dt_diffusion. rewrite E. set (k := diffusion_number fam p leapfrog) in *.
  destruct (limit_spec (fun m => (m * k) ^ 2) nu rh hs Hnu S Hh) as (c & Ec & Sc).
  { intros x y X Y L. apply pow_incr. split; [nra|]. apply Rmult_le_compat_r; lra. }
  rewrite Ec. destruct c as [d|].
  - right. destruct Sc as (U & (y & Iy & Ey) & L). split; [exact U|]. exists d. split; [reflexivity|].
    intros x. split.
    + intros X h Ih. specialize (L h Ih). rewrite (Rmult_comm k h).
      apply Rle_trans with (d * nu); [apply Rmult_le_compat_r; lra|exact L].
    + intros X. specialize (X y Iy). rewrite (Rmult_comm k y), <- Ey in X.
      apply Rmult_le_reg_r with nu; assumption.
  - left. split; [exact Sc|reflexivity].
Qed.
Example C65_diffusion_limit_case : diffusion_number DGDG 1 true = 6 / 100.
Proof. unfold diffusion_number. cbn [INR]. field. Qed.
Print Assumptions C65_diffusion_limit.
