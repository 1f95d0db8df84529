(** Clauses of C37, C41 and C43 added after wrong programs survived. *)
From Coq Require Import Reals List Lra Lia.
From Verif Require Import Depth_Model P_Depth Turbine_Model Sediment_Model P_Sediment.
Import ListNotations.
Open Scope R_scope.

(** ** C37: an accepted wetting-drying parameter keeps the depth non-negative everywhere,
    and one bad node is enough for a refusal. *)
Theorem C37_accepted_alpha ws nodal h eta : Forall (fun w => 0 <= w) ws ->
  alpha_accepted nodal ->
  0 <= interpolate_p1 ws nodal
  /\ 0 <= total_depth (wd (interpolate_p1 ws nodal)) h eta
  /\ h + eta <= total_depth (wd (interpolate_p1 ws nodal)) h eta.
Proof.
  intros W A.
  assert (P : 0 <= interpolate_p1 ws nodal).
  { unfold interpolate_p1. revert nodal A. induction W as [|w ws Hw W IH]; intros nodal A; [cbn; lra|].
    destruct A as [|a nodal Ha A]; [cbn; lra|]. cbn [combine map fold_right fst snd].
    specialize (IH nodal A). assert (0 <= w * a) by (apply Rmult_le_pos; lra). lra. }
  split; [exact P|].
  destruct (C37_depth_near_real_depth (interpolate_p1 ws nodal) h eta P) as (Q1 & Q2).
  pose proof (Rmax_l (h + eta) 0). pose proof (Rmax_r (h + eta) 0). split; lra.
Qed.
Theorem C37_bad_node_refused nodal a : In a nodal -> a < 0 -> ~ alpha_accepted nodal.
Proof. intros I L A. unfold alpha_accepted in A. rewrite Forall_forall in A. specialize (A a I). lra. Qed.
Example C37_accepted_example : alpha_accepted [0.5; 2] /\ ~ alpha_accepted [0.5; -1; 2]
  /\ interpolate_p1 [1/2; 1/2] [0.5; 2] = 1.25.
Proof.
  split; [repeat constructor; lra|]. split.
  - apply (C37_bad_node_refused _ (-1)); [right; left; reflexivity|lra].
  - unfold interpolate_p1. cbn. lra.
Qed.

(** ** C41: the velocity samples are spread evenly over the rotor, from its lowest to its
    highest point. *)
Theorem C41_rotor_samples : forall hub diam n, (2 <= n)%nat -> 0 < diam ->
  z_val hub diam n 0 = hub - diam / 2
  /\ z_val hub diam n (n - 1) = hub + diam / 2
  /\ (forall i, z_val hub diam n (S i) - z_val hub diam n i = diam / INR (n - 1))
  /\ (forall i, (i < n)%nat -> hub - diam / 2 <= z_val hub diam n i <= hub + diam / 2
                 /\ z_val hub diam n i + z_val hub diam n (n - 1 - i) = 2 * hub).
Proof.
  intros hub diam n Hn Hd.
  assert (P : 0 < INR (n - 1)) by (apply lt_0_INR; lia).
  assert (T : INR (n - 1) * (diam / INR (n - 1)) = diam) by (field; lra).
  unfold z_val. split; [cbn [INR]; lra|]. split; [lra|]. split.
  - intro i. rewrite S_INR. ring.
  - intros i Hi. assert (E : INR (n - 1 - i) = INR (n - 1) - INR i) by (apply minus_INR; lia).
    rewrite E. assert (0 <= INR i) by apply pos_INR. assert (INR i <= INR (n - 1)) by (apply le_INR; lia).
    assert (Q : 0 < diam / INR (n - 1)) by (apply Rdiv_lt_0_compat; lra).
    set (q := diam / INR (n - 1)) in *. set (x := INR i) in *. set (m := INR (n - 1)) in *.
    assert (0 <= x * q) by (apply Rmult_le_pos; lra).
    assert (x * q <= m * q) by (apply Rmult_le_compat_r; lra).
    split; [lra|]. replace ((m - x) * q) with (m * q - x * q) by ring. lra.
Qed.
Example C41_rotor_samples_example : z_val 20 18 10 0 = 11 /\ z_val 20 18 10 9 = 29.
Proof.
  destruct (C41_rotor_samples 20 18 10 ltac:(lia) ltac:(lra)) as (A & B & _).
  change (10 - 1)%nat with 9%nat in B. rewrite A, B. split; lra.
Qed.

(** ** C43: the suspended load is the depth average of a Rouse profile.  [v] is the integral
    of [f] from [a] to [b]. *)
Definition is_integral (f : R -> R) (a b v : R) : Prop :=
  exists F, (forall z, a <= z <= b -> derivable_pt_lim F z (f z)) /\ v = F b - F a.

Lemma deriv_rpower : forall p z, 0 < z -> derivable_pt_lim (fun x => Rpower x p) z (p * Rpower z (p - 1)).
Proof. intros p z Hz. apply derivable_pt_lim_power. exact Hz. Qed.

(** relative heights z run from the reference level b to the surface 1, the concentration
    relative to that at the reference level is (b/z)^(ws/(kappa u_star)) *)
Theorem C43_rouse_profile : forall ws us b, 0 < us -> 0 < b < 1 ->
  let p := ws / (kappa * us) in
  (p = 1 \/ (1 / 10000 < Rabs (p - 1) /\ p <= 4)) ->
  is_integral (fun z => Rpower (b / z) p) b 1 (intermediate_step b (rouse_number ws us)).
Proof.
  intros ws us b Hu Hb p Hp. unfold rouse_number. fold p.
  assert (L : ln b < 0) by (rewrite <- ln_1; apply ln_increasing; lra).
  unfold intermediate_step, conditional_gt. destruct Hp as [E|(Hr & H4)].
  - rewrite E. replace (1 - 1) with 0 by ring. rewrite Rabs_R0.
    destruct (Rlt_dec (1 / 10000) 0) as [F|_]; [lra|].
    exists (fun z => b * ln z). split.
    + intros z Hz. rewrite Rpower_1 by (apply Rdiv_lt_0_compat; lra).
      unfold Rdiv. apply (derivable_pt_lim_scal ln b z (/ z)). apply derivable_pt_lim_ln. lra.
    + rewrite ln_1. ring.
  - set (r := p - 1) in *. assert (Hr0 : r <> 0) by (intro F; rewrite F, Rabs_R0 in Hr; lra).
    destruct (Rlt_dec (1 / 10000) (Rabs r)) as [_|F]; [|lra].
    rewrite Rmin_left by (unfold r; lra).
    exists (fun z => (- (Rpower b p / r)) * Rpower z (- r)). split.
    + intros z Hz.
      assert (E : Rpower (b / z) p = (- (Rpower b p / r)) * (- r * Rpower z (- r - 1))).
      { unfold Rdiv at 1. rewrite <- Rpower_mult_distr by (try apply Rinv_0_lt_compat; lra).
        replace (- r - 1) with (- p) by (unfold r; ring).
        assert (I : Rpower (/ z) p = Rpower z (- p)).
        { unfold Rpower. rewrite ln_Rinv by lra. f_equal. ring. }
        rewrite I. field. exact Hr0. }
      rewrite E. apply (derivable_pt_lim_scal (fun x => Rpower x (- r)) (- (Rpower b p / r)) z).
      apply deriv_rpower. lra.
    + assert (O : Rpower 1 (- r) = 1) by (unfold Rpower; rewrite ln_1, Rmult_0_r; apply exp_0).
      rewrite O. assert (B : Rpower b p * Rpower b (- r) = b).
      { rewrite <- Rpower_plus. replace (p + - r) with 1 by (unfold r; ring). apply Rpower_1. lra. }
      assert (C : Rpower b p = b * Rpower b r).
      { replace p with (1 + r) by (unfold r; ring). rewrite Rpower_plus, Rpower_1 by lra. reflexivity. }
      transitivity ((Rpower b p * Rpower b (- r) - Rpower b p) / r); [|field; exact Hr0].
      rewrite B, C. field. exact Hr0.
Qed.
Example C43_rouse_profile_case : 0 < 0.05 /\ 0 < 0.1 < 1 /\
  (0.04 / (kappa * 0.05) = 1 \/ (1 / 10000 < Rabs (0.04 / (kappa * 0.05) - 1) /\ 0.04 / (kappa * 0.05) <= 4)).
Proof.
  split; [lra|]. split; [lra|]. right. unfold kappa.
  replace (0.04 / (0.4 * 0.05)) with 2 by lra. split; [|lra]. replace (2 - 1) with 1 by ring. rewrite Rabs_R1. lra.
Qed.

(** the transport stage compares the skin friction with the critical stress *)
Theorem C43_transport_stage : forall tau tcr, 0 < tcr ->
  transport_stage tau tcr = Rmax tau 0 / tcr - 1.
Proof.
  intros tau tcr H. unfold transport_stage, conditional_gt. destruct (Rlt_dec 0 tau) as [P|P].
  - rewrite Rmax_left by lra. field. lra.
  - rewrite Rmax_right by lra. field. lra.
Qed.

(** ** C43: the slope correction looks at the slope of the bed in the direction of the flow. *)
Theorem C43_slope_correction : forall i speed a, physical i -> 0 < speed ->
  bl_u i = speed * cos a -> bl_v i = speed * sin a ->
  let q := phi i * bedload_scale i in
  let slope := bl_zx i * cos a + bl_zy i * sin a in
  bedload (mkBo false false false) i = (q * cos a, q * sin a)
  /\ bedload (mkBo true false false) i
     = ((1 + bl_beta i * slope) * q * cos a, (1 + bl_beta i * slope) * q * sin a).
Proof.
  intros i speed a Hi Hs Eu Ev q slope.
  assert (N : sqrt (unorm i) = speed).
  { unfold unorm. rewrite Eu, Ev.
    replace ((speed * cos a) ^ 2 + (speed * sin a) ^ 2) with (speed * speed * ((sin a)² + (cos a)²)) by (unfold Rsqr; ring).
    rewrite sin2_cos2, Rmult_1_r. apply sqrt_square. lra. }
  assert (C : calfa i = cos a) by (unfold calfa; rewrite N, Eu; field; lra).
  assert (S : salfa i = sin a) by (unfold salfa; rewrite N, Ev; field; lra).
  unfold bedload. cbn [o_angle o_secondary andb negb]. unfold slopecoef. cbn [o_slope]. rewrite C, S.
  fold slope. unfold q. split; f_equal; ring.
Qed.

(** ** C43: the secondary current turns the transport and does not change its component along
    the flow; the component across the flow is towards the lower side of the free surface
    (the surface has the gradient of depth_tot minus that of the bathymetry). *)
Theorem C43_secondary_current_across : forall slope i, physical i ->
  0 <= phi i -> 0 < slopecoef (mkBo slope false false) i -> 0 < bl_depth i -> 0 < bl_alpha_secc i ->
  let q := bedload (mkBo slope false true) i in
  let q0 := bedload (mkBo slope false false) i in
  let across v := fst v * bl_v i - snd v * bl_u i in
  let surface_slope_across := (bl_dx i - bl_zx i) * bl_v i - (bl_dy i - bl_zy i) * bl_u i in
  fst q * bl_u i + snd q * bl_v i = fst q0 * bl_u i + snd q0 * bl_v i
  /\ across q0 = 0
  /\ across q * surface_slope_across <= 0.
Proof.
  intros slope i Hi Hphi Hsl Hd Ha q q0 across ssa.
  pose proof (stress_pos i Hi) as Hs. destruct Hi as (Hu & Hq & Hmu & Hr & Hz & Ht).
  assert (S0 : 0 < sqrt (unorm i)) by (apply sqrt_lt_R0; exact Hu).
  assert (SS : sqrt (unorm i) * sqrt (unorm i) = unorm i) by (apply sqrt_sqrt; left; exact Hu).
  set (o := mkBo slope false true). set (sc := slopecoef (mkBo slope false false) i) in *.
  set (w := velocity_slide i). set (td := tandelta i).
  assert (E1 : t_1 o i = stress i * sc * calfa i + bl_v i * td * w) by reflexivity.
  assert (E2 : t_2 o i = stress i * sc * salfa i - bl_u i * td * w) by reflexivity.
  assert (UC : bl_u i = sqrt (unorm i) * calfa i) by (unfold calfa; field; lra).
  assert (VC : bl_v i = sqrt (unorm i) * salfa i) by (unfold salfa; field; lra).
  assert (UU : bl_u i * calfa i + bl_v i * salfa i = sqrt (unorm i)).
  { unfold calfa, salfa. transitivity ((bl_u i ^ 2 + bl_v i ^ 2) / sqrt (unorm i)); [field; lra|]. change (bl_u i ^ 2 + bl_v i ^ 2) with (unorm i).
    apply (Rmult_eq_reg_r (sqrt (unorm i))); [|lra]. rewrite SS. field. lra. }
  assert (AL : t_1 o i * bl_u i + t_2 o i * bl_v i = stress i * sc * sqrt (unorm i)).
  { rewrite E1, E2, <- UU. ring. }
  assert (P4 : 0 < t_4 o i).
  { unfold t_4. apply sqrt_lt_R0.
    assert (N : 0 < t_1 o i * bl_u i + t_2 o i * bl_v i).
    { rewrite AL. apply Rmult_lt_0_compat; [|exact S0]. apply Rmult_lt_0_compat; assumption. }
    destruct (Req_dec (t_1 o i) 0) as [Z1|Z1].
    - destruct (Req_dec (t_2 o i) 0) as [Z2|Z2]; [rewrite Z1, Z2 in N; lra|].
      assert (0 < t_2 o i ^ 2) by (rewrite <- Rsqr_pow2; apply Rsqr_pos_lt; exact Z2). pose proof (pow2_ge_0 (t_1 o i)). lra.
    - assert (0 < t_1 o i ^ 2) by (rewrite <- Rsqr_pow2; apply Rsqr_pos_lt; exact Z1). pose proof (pow2_ge_0 (t_2 o i)). lra. }
  destruct (C43_secondary_current o i (conj Hu (conj Hq (conj Hmu (conj Hr (conj Hz Ht))))) eq_refl P4) as (EB & _).
  assert (Q : q = (t_1 o i / stress i * phi i * bedload_scale i, t_2 o i / stress i * phi i * bedload_scale i)) by exact EB.
  assert (Q0 : q0 = (sc * phi i * bedload_scale i * calfa i, sc * phi i * bedload_scale i * salfa i)) by reflexivity.
  split; [|split].
  - rewrite Q, Q0. cbn [fst snd].
    transitivity ((t_1 o i * bl_u i + t_2 o i * bl_v i) / stress i * phi i * bedload_scale i); [field; lra|].
    rewrite AL. rewrite <- UU. field. lra.
  - unfold across. rewrite Q0. cbn [fst snd]. rewrite UC, VC. ring.
  - unfold across. rewrite Q. cbn [fst snd].
    assert (X : t_1 o i * bl_v i - t_2 o i * bl_u i = unorm i * td * w).
    { rewrite E1, E2. transitivity (stress i * sc * (calfa i * bl_v i - salfa i * bl_u i) + (bl_u i ^ 2 + bl_v i ^ 2) * td * w); [ring|].
      change (bl_u i ^ 2 + bl_v i ^ 2) with (unorm i).
      assert (Z : calfa i * bl_v i - salfa i * bl_u i = 0) by (unfold calfa, salfa; field; lra). rewrite Z. ring. }
    assert (W : ssa = - w) by (unfold ssa, w, velocity_slide; ring).
    assert (G : 0 <= bedload_scale i) by apply sqrt_pos.
    assert (TD : 0 < td).
    { unfold td, tandelta. apply Rdiv_lt_0_compat.
      - unfold g_grav, rho0. apply Rmult_lt_0_compat; [|exact Hq]. apply Rmult_lt_0_compat; [lra|exact Hd].
      - apply Rmult_lt_0_compat; [lra|exact Hu]. }
    replace ((t_1 o i / stress i * phi i * bedload_scale i * bl_v i - t_2 o i / stress i * phi i * bedload_scale i * bl_u i) * ssa)
      with (- (/ stress i * phi i * bedload_scale i * (unorm i * td) * (w * w))).
    2:{ rewrite W. transitivity ((t_1 o i * bl_v i - t_2 o i * bl_u i) / stress i * phi i * bedload_scale i * - w); [|field; lra].
        rewrite X. field. lra. }
    assert (0 <= / stress i) by (left; apply Rinv_0_lt_compat; exact Hs).
    assert (0 <= w * w) by (apply Rle_0_sqr).
    assert (0 <= unorm i * td) by (apply Rmult_le_pos; lra).
    assert (0 <= / stress i * phi i * bedload_scale i * (unorm i * td) * (w * w)).
    { apply Rmult_le_pos; [|assumption]. apply Rmult_le_pos; [|assumption].
      apply Rmult_le_pos; [|assumption]. apply Rmult_le_pos; assumption. }
    lra.
Qed.
Example C43_secondary_example :
  let i := mkBl 1 0 0 0 0 0 0 0.001 10 0.005 1 2650 0.001 0.05 1.3 0.5 0.75 in
  physical i /\ 0 < slopecoef (mkBo true false false) i /\ 0 < bl_depth i /\ 0 < bl_alpha_secc i
  /\ (bl_dx i - bl_zx i) * bl_v i - (bl_dy i - bl_zy i) * bl_u i <> 0.
Proof.
  intro i. unfold physical, unorm, slopecoef, calfa, salfa, rho0, i.
  cbn [bl_u bl_v bl_qfc bl_mu bl_rhos bl_size bl_thetacr bl_beta bl_zx bl_zy bl_depth bl_alpha_secc bl_dx bl_dy o_slope].
  split; [lra|]. split; [lra|]. split; [lra|]. split; lra.
Qed.

Print Assumptions C37_accepted_alpha.
Print Assumptions C37_bad_node_refused.
Print Assumptions C41_rotor_samples.
Print Assumptions C43_rouse_profile.
Print Assumptions C43_transport_stage.
Print Assumptions C43_slope_correction.
Print Assumptions C43_secondary_current_across.
