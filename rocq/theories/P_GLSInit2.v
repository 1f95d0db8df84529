(** C69, continued: the completed parameters are the ones the log layer needs. *)
From Coq Require Import Reals String List Bool Lra Psatz.
From Verif Require Import Stability_Model P_Stability P_StabilitySets Turb_Model P_Turbulence
  GLSInit_Model P_GLSInit.
Import ListNotations.
Open Scope string_scope.
Open Scope R_scope.

(** What the user set and did not ask to be computed is left alone. *)
Theorem C69_user_values_kept : forall num o vk o' vk', construct num o vk = Built o' vk' ->
  (g_p o' = g_p o /\ g_m o' = g_m o /\ g_n o' = g_n o /\ g_c1 o' = g_c1 o /\ g_c2 o' = g_c2 o
   /\ g_c3p o' = g_c3p o /\ g_sk o' = g_sk o /\ g_fwall o' = g_fwall o /\ g_kmin o' = g_kmin o
   /\ g_epsmin o' = g_epsmin o)
  /\ (f_cmu0 o = false -> g_cmu0 o' = g_cmu0 o)
  /\ (f_kappa o = false -> g_kappa o' = g_kappa o /\ vk' = vk)
  /\ (f_spsi o = false \/ f_kappa o = true -> g_spsi o' = g_spsi o)
  /\ (f_c3m o = false -> g_c3m o' = g_c3m o)
  /\ (f_psimin o = false -> g_psimin o' = g_psimin o)
  /\ (f_lenmin o = false -> g_lenmin o' = g_lenmin o)
  /\ (f_clim o = false -> g_clim o' = g_clim o).
Proof.
  intros num o vk o' vk' H.
  destruct (construct_fields num o vk o' vk' H) as (c & Ec & (E1 & E2 & E3 & E4 & E5 & E6 & E7 & E8 & E9 & E10
    & E11 & E12 & E13) & _ & P1 & P2 & P3 & P4 & P5 & P6).
  split; [repeat split; assumption|].
  split. { intro F. rewrite F in P1. exact P1. }
  split. { intro F. rewrite F in P2. destruct P2 as (A & B & _). split; assumption. }
  split. { intro F. destruct (f_kappa o); [destruct P2 as (_ & _ & A); exact A|].
           destruct F as [F|F]; [|discriminate]. rewrite F in P2. destruct P2 as (_ & _ & A); exact A. }
  split. { intro F. rewrite F in P3. exact P3. }
  split. { intro F. rewrite F in P4. exact P4. }
  split. { intro F. rewrite F in P5. exact P5. }
  intro F. rewrite F in P6. exact P6.
Qed.

(** The von Karman constant, the Schmidt number of psi and the other constants satisfy
    the log layer relation, whichever of the two is computed from the other. *)
Theorem C69_log_layer_relation : forall num o vk o' vk', construct num o vk = Built o' vk' ->
  valid o -> g_n o <> 0 -> g_c1 o < g_c2 o -> f_kappa o = true \/ f_spsi o = true ->
  (g_n o' * g_kappa o') ^ 2 = g_spsi o' * g_cmu0 o' ^ 2 * (g_c2 o' - g_c1 o').
Proof.
  intros num o vk o' vk' H V Hn Hc F.
  destruct (construct_fields num o vk o' vk' H) as (c & Ec & (E1 & E2 & E3 & E4 & E5 & E6 & E7 & E8 & E9 & E10
    & E11 & E12 & E13) & _ & P1 & P2 & _).
  assert (Hcm : 0 < g_cmu0 o').
  { destruct (f_cmu0 o); [destruct P1 as (_ & -> & A); exact A|rewrite P1; apply V]. }
  rewrite E5, E7, E8. destruct (f_kappa o).
  - destruct P2 as (Hk & _ & Hs).
    assert (Hs0 : g_spsi o >= 0) by (destruct V as (_ & V & _); lra).
    destruct (C39_kappa_sigma_inverse (g_spsi o) (g_cmu0 o') (g_n o) (g_c1 o) (g_c2 o) Hs0 Hcm Hn Hc) as [A _].
    rewrite <- Hk in A. unfold compute_sigma_psi in A. rewrite Hs, <- A. field. lra.
  - destruct P2 as (Hk & _ & Hs). destruct F as [F|F]; [discriminate|]. rewrite F in Hs.
    destruct Hs as [Hs _]. rewrite Hs, Hk. unfold compute_sigma_psi. field. lra.
Qed.

(** Without either switch the relation need not hold: the tabulated k-epsilon values. *)
Theorem C69_log_layer_relation_refuted : exists o o' vk', forall num,
  apply_defaults "k-epsilon" defaults = Some defaults /\
  f_kappa o = false /\ f_spsi o = false /\ g_spsi o = g_spsi defaults /\ g_kappa o = g_kappa defaults
  /\ construct num o 0.4 = Built o' vk'
  /\ (g_n o' * g_kappa o') ^ 2 <> g_spsi o' * g_cmu0 o' ^ 2 * (g_c2 o' - g_c1 o').
Proof.
  exists (mkOpts "k-epsilon" "Canuto A" 3 1.5 (-1) 1 1.3 0.5477 1.44 1.92 (-0.52) 1 1 0.25 0.4
         1e-6 1e-14 1e-14 1e-12 0.30 false false false false false false false),
    (mkOpts "k-epsilon" "Canuto A" 3 1.5 (-1) 1 1.3 0.5477 1.44 1.92 (-0.52) 1 1 0.25 0.4
         1e-6 1e-14 1e-14 1e-12 0.30 false false false false false false false), 0.4.
  intro num. repeat (split; [reflexivity|]). cbn. lra.
Qed.

(** The law of the wall with friction velocity [us] and von Karman constant [kap],
    [z] the distance from the wall. *)
Section Wall.
Variables us kap cmu0 p m n : R.
Definition wall_k : R := us ^ 2 / cmu0 ^ 2.
Definition wall_eps (z : R) : R := us ^ 3 / (kap * z).
Definition wall_visc (z : R) : R := kap * us * z.
Definition wall_shear (z : R) : R := us / (kap * z).
Definition wall_u (z0 z : R) : R := us / kap * ln (z / z0).
Definition wall_psi (z : R) : R := Rpower cmu0 p * Rpower wall_k m * Rpower (kap * z) n.
End Wall.

Lemma derive_ext : forall f g x l, (forall y, f y = g y) -> derivable_pt_lim f x l -> derivable_pt_lim g x l.
Proof.
  intros f g x l E H eps He. destruct (H eps He) as [d Hd]. exists d. intros h Hh Hd'.
  rewrite <- !E. apply Hd; assumption.
Qed.
Lemma derive_local : forall f g x l, 0 < x -> (forall y, 0 < y -> f y = g y) ->
  derivable_pt_lim f x l -> derivable_pt_lim g x l.
Proof.
  intros f g x l Hx E H eps He. destruct (H eps He) as [d Hd].
  assert (Hm : 0 < Rmin d x) by (apply Rmin_glb_lt; [apply cond_pos|exact Hx]).
  exists (mkposreal (Rmin d x) Hm). intros h Hh Hd'. cbn in Hd'.
  assert (A : Rabs h < d) by (eapply Rlt_le_trans; [exact Hd'|apply Rmin_l]).
  assert (B : Rabs h < x) by (eapply Rlt_le_trans; [exact Hd'|apply Rmin_r]).
  apply Rabs_def2 in B. rewrite <- !E by lra. apply Hd; assumption.
Qed.

Lemma derive_psi : forall us kap cmu0 p m n z, 0 < kap -> 0 < z ->
  derivable_pt_lim (wall_psi us kap cmu0 p m n) z (n * wall_psi us kap cmu0 p m n z / z).
Proof.
  intros us kap cmu0 p m n z Hk Hz. unfold wall_psi at 1.
  set (A := Rpower cmu0 p * Rpower (wall_k us cmu0) m).
  apply (derive_local (fun z => (A * Rpower kap n) * Rpower z n)); [exact Hz| |].
  - intros y Hy. rewrite Rpower_mult_n by assumption. ring.
  - replace (n * wall_psi us kap cmu0 p m n z / z) with ((A * Rpower kap n) * (n * Rpower z (n - 1))).
    + apply (derivable_pt_lim_scal (fun z => Rpower z n)). apply derivable_pt_lim_power. exact Hz.
    + unfold wall_psi. fold A. rewrite Rpower_mult_n by assumption.
      replace (Rpower z n) with (Rpower z (n - 1) * z).
      * field. lra.
      * rewrite <- (Rpower_1 z Hz) at 2. rewrite <- Rpower_plus. f_equal. ring.
Qed.

(** For a model that was built with either switch on, the law of the wall is an exact
    steady state of the neutral psi equation: the dissipation that the model computes
    from k and psi is the one of the law of the wall, it equals the shear production,
    and the divergence of the diffusive flux balances the sources. *)
Theorem C69_law_of_the_wall : forall num o vk o' vk' us z0 z,
  construct num o vk = Built o' vk' ->
  valid o -> g_n o <> 0 -> g_c1 o < g_c2 o -> f_kappa o = true \/ f_spsi o = true ->
  g_fwall o = 1 -> 0 < g_kappa o' -> 0 < us -> 0 < z0 -> 0 < z ->
  let kap := g_kappa o' in let cm := g_cmu0 o' in
  let psi := wall_psi us kap cm (g_p o') (g_m o') (g_n o') in
  let k := wall_k us cm in let eps := wall_eps us kap z in
  let P := wall_visc us kap z * wall_shear us kap z ^ 2 in
  derivable_pt_lim (wall_u us kap z0) z (wall_shear us kap z)
  /\ wall_visc us kap z = cm ^ 4 * k ^ 2 / eps
  /\ P = eps
  /\ eps_of_psi (gls_of o') k (psi z) = eps
  /\ exists dpsi dflux,
       (forall y, 0 < y -> derivable_pt_lim psi y (dpsi y))
       /\ derivable_pt_lim (fun y => wall_visc us kap y / g_spsi o' * dpsi y) z dflux
       /\ dflux + psi z / k * (g_c1 o' * P - g_c2 o' * g_fwall o' * eps) = 0.
Proof.
  intros num o vk o' vk' us z0 z H V Hn Hc F Hw Hk Hu Hz0 Hz kap cm psi k eps P.
  pose proof (C69_log_layer_relation num o vk o' vk' H V Hn Hc F) as Rel.
  destruct (construct_fields num o vk o' vk' H) as (c & Ec & (E1 & E2 & E3 & E4 & E5 & E6 & E7 & E8 & E9 & E10
    & E11 & E12 & E13) & _ & P1 & P2 & _).
  assert (Hcm : 0 < cm).
  { unfold cm. destruct (f_cmu0 o); [destruct P1 as (_ & -> & A); exact A|rewrite P1; apply V]. }
  assert (Hs : 0 < g_spsi o').
  { destruct V as (_ & V & _). destruct (f_kappa o); [destruct P2 as (_ & _ & ->); exact V|].
    destruct P2 as (_ & _ & P2). destruct (f_spsi o); [apply P2|rewrite P2; exact V]. }
  assert (Hk0 : 0 < k) by (unfold k, wall_k; apply Rmult_lt_0_compat; [apply pow_lt; exact Hu|apply Rinv_0_lt_compat, pow_lt; exact Hcm]).
  fold kap in Hk. clear P1 P2 F V H. rewrite E10, Hw.
  assert (Hn' : g_n o' <> 0) by (rewrite E5; exact Hn).
  assert (HP : P = eps) by (unfold P, eps, wall_visc, wall_shear, wall_eps; field; lra).
  split.
  { unfold wall_u.
    apply (derive_local (fun z => us / kap * ln z - us / kap * ln z0)); [exact Hz| |].
    - intros y Hy. replace (y / z0) with (y * / z0) by reflexivity. rewrite ln_mult, ln_Rinv; [ring|lra|lra|apply Rinv_0_lt_compat; lra].
    - replace (wall_shear us kap z) with (us / kap * / z - 0) by (unfold wall_shear; field; lra).
      apply derivable_pt_lim_minus; [|apply derivable_pt_lim_const].
      apply (derivable_pt_lim_scal ln). apply derivable_pt_lim_ln. exact Hz. }
  split. { unfold wall_visc, k, wall_k, eps, wall_eps. field. repeat split; lra. }
  split; [exact HP|].
  split.
  { assert (L : len_of (gls_of o') k eps = kap * z).
    { unfold len_of. cbn [gls_of o_cmu0]. unfold eps, wall_eps. fold cm.
      assert (EK : Rpower k (3 / 2) = us ^ 3 / cm ^ 3).
      { unfold k, wall_k. replace (us ^ 2 / cm ^ 2) with ((us / cm) * (us / cm)) by (field; lra).
        assert (Hq : 0 < us / cm) by (apply Rmult_lt_0_compat; [lra|apply Rinv_0_lt_compat; lra]).
        rewrite Rpower_mult_n by exact Hq. rewrite <- Rpower_plus.
        replace (3 / 2 + 3 / 2) with (INR 3) by (simpl; lra).
        rewrite Rpower_pow by exact Hq. field. lra. }
      rewrite EK. field. repeat split; lra. }
    assert (Ps : psi z = psi_of_eps (gls_of o') k eps).
    { pose proof (C40_psi_definition (gls_of o') k (kap * z)) as D.
      assert (Hkz : 0 < kap * z) by (apply Rmult_lt_0_compat; lra).
      destruct (D Hn' Hkz Hk0 Hcm) as [D1 _].
      assert (L' : len_of (gls_of o') k (kap * z) = eps).
      { rewrite <- L. destruct (C40_psi_definition (gls_of o') k eps) as [_ D2]; try assumption.
        unfold eps, wall_eps. apply Rmult_lt_0_compat; [apply pow_lt; exact Hu|apply Rinv_0_lt_compat; exact Hkz]. }
      rewrite L' in D1. rewrite D1. reflexivity. }
    rewrite Ps. apply C40_psi_eps_round_trip; try assumption.
    unfold eps, wall_eps. apply Rmult_lt_0_compat; [apply pow_lt; exact Hu|apply Rinv_0_lt_compat].
    apply Rmult_lt_0_compat; lra. }
  exists (fun y => g_n o' * psi y / y), (g_n o' * (kap * us / g_spsi o') * (g_n o' * psi z / z)).
  split. { intros y Hy. apply derive_psi; assumption. }
  split.
  { apply (derive_local (fun y => (g_n o' * (kap * us / g_spsi o')) * psi y)); [exact Hz| |].
    - intros y Hy. unfold wall_visc. field. lra.
    - apply (derivable_pt_lim_scal psi). apply derive_psi; assumption. }
  rewrite HP.
  assert (Rel' : (g_n o' * kap) ^ 2 = g_spsi o' * cm ^ 2 * (g_c2 o' - g_c1 o')) by exact Rel.
  unfold eps, wall_eps, k, wall_k.
  replace (psi z / (us ^ 2 / cm ^ 2) * (g_c1 o' * (us ^ 3 / (kap * z)) - g_c2 o' * 1 * (us ^ 3 / (kap * z))))
    with (- (cm ^ 2 * (g_c2 o' - g_c1 o')) * (us * psi z / (kap * z))) by (field; repeat split; lra).
  replace (cm ^ 2 * (g_c2 o' - g_c1 o')) with ((g_n o' * kap) ^ 2 / g_spsi o')
    by (rewrite Rel'; field; lra).
  field. repeat split; lra.
Qed.
