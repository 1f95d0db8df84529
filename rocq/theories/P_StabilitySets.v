(** C39, continued: positivity and values for the shipped parameter sets. *)
From Coq Require Import Reals Lra Lia Psatz.
From Verif Require Import Stability_Model P_Stability.
Open Scope R_scope.

(** * Values of cmu0 *)
Lemma sqrt_between : forall x lo hi, 0 <= lo -> 0 <= hi -> lo * lo <= x -> x <= hi * hi ->
  lo <= sqrt x <= hi.
Proof.
  intros x lo hi H1 H2 H3 H4. split.
  - rewrite <- (sqrt_square lo) by exact H1. apply sqrt_le_1_alt. exact H3.
  - rewrite <- (sqrt_square hi) by exact H2. apply sqrt_le_1_alt. exact H4.
Qed.
Lemma pow4_lt : forall x y, 0 <= x -> 0 <= y -> x ^ 4 < y ^ 4 -> x < y.
Proof. intros x y Hx Hy H. apply Rnot_le_lt. intro F. pose proof (pow_incr y x 4 (conj Hy F)). lra. Qed.

(** the neutral value of Canuto A is the published 0.527; the Cheng class gives
    0.5345 where the same closure in GOTM form gives 0.527 *)
Theorem C39_cmu0_canuto_A : 0.527 < compute_cmu0 (canuto_coeffs canutoA) < 0.5271.
Proof.
  set (c := canuto_coeffs canutoA).
  assert (HS : 32.29725 <= sqrt ((d2 c - n0 c) ^ 2 - 4 * (d5 c - n2 c) * d0 c) <= 32.29726)
    by (apply sqrt_between; unfold c; coeff; lra).
  assert (HX : 12.96 < cmu0_alpha_shear c < 12.963).
  { unfold cmu0_alpha_shear. cbv zeta. set (q := sqrt _) in *. clearbody q.
    assert (Hp : d5 c - n2 c > 0) by (unfold c; coeff; lra).
    split; (apply (Rmult_lt_reg_r (d5 c - n2 c)); [exact Hp|]);
    match goal with |- context [?e / (d5 c - n2 c) * (d5 c - n2 c)] =>
      replace (e / (d5 c - n2 c) * (d5 c - n2 c)) with e by (field; apply Rgt_not_eq; exact Hp) end;
    unfold c; coeff; lra. }
  assert (HD : eval_den c 0 (cmu0_alpha_shear c) > 0).
  { set (x := cmu0_alpha_shear c) in *. clearbody x. unfold eval_den, c. coeff. nra. }
  destruct (C39_cmu0 c) as (_ & _ & E & Hpos).
  - apply Rgt_not_eq. unfold c; coeff; lra.
  - unfold c; coeff; lra.
  - apply Rgt_not_eq. exact HD.
  - lra.
  - set (m := compute_cmu0 c) in *. set (x := cmu0_alpha_shear c) in *. clearbody m x. clear HS HD.
    split; apply pow4_lt; try lra.
    + assert (0.527 ^ 4 * x < 1) by lra. nra.
    + assert (0.5271 ^ 4 * x > 1) by lra. nra.
Qed.

Theorem C39_cmu0_cheng : 0.534 < compute_cmu0 (cheng_coeffs cheng) < 0.535.
Proof.
  set (c := cheng_coeffs cheng).
  assert (HS : 0.084451 <= sqrt ((d2 c - n0 c) ^ 2 - 4 * (d5 c - n2 c) * d0 c) <= 0.0844511)
    by (apply sqrt_between; unfold c; coeff; lra).
  assert (HX : 12.245 < cmu0_alpha_shear c < 12.255).
  { unfold cmu0_alpha_shear. cbv zeta. set (q := sqrt _) in *. clearbody q.
    assert (Hp : - (d5 c - n2 c) > 0) by (unfold c; coeff; lra).
    assert (Hne : d5 c - n2 c <> 0) by lra.
    split; (apply (Rmult_lt_reg_r (- (d5 c - n2 c))); [exact Hp|]);
    match goal with |- context [?e / (d5 c - n2 c) * - (d5 c - n2 c)] =>
      replace (e / (d5 c - n2 c) * - (d5 c - n2 c)) with (- e) by (field; exact Hne) end;
    unfold c; coeff; lra. }
  assert (HD : eval_den c 0 (cmu0_alpha_shear c) > 0).
  { set (x := cmu0_alpha_shear c) in *. clearbody x. unfold eval_den, c. coeff. nra. }
  destruct (C39_cmu0 c) as (_ & _ & E & Hpos).
  - apply Rlt_not_eq. unfold c; coeff; lra.
  - unfold c; coeff; lra.
  - apply Rgt_not_eq. exact HD.
  - lra.
  - set (m := compute_cmu0 c) in *. set (x := cmu0_alpha_shear c) in *. clearbody m x. clear HS HD.
    split; apply pow4_lt; try lra.
    + assert (0.534 ^ 4 * x < 1) by lra. nra.
    + assert (0.535 ^ 4 * x > 1) by lra. nra.
Qed.

(** * Examples *)
(** the hypotheses of the steady state theorem hold for Canuto A at Ri = 1/4 *)
Example C39_steady_example : let c := canuto_coeffs canutoA in
  steady_a c (1 / 4) <> 0 /\ steady_b c (1 / 4) ^ 2 - 4 * steady_a c (1 / 4) * steady_c c >= 0
  /\ eval_den c (1 / 4 * compute_alpha_shear_steady c (1 / 4)) (compute_alpha_shear_steady c (1 / 4)) <> 0.
Proof.
  set (c := canuto_coeffs canutoA). cbv zeta.
  assert (Ha : steady_a c (1 / 4) > 0) by (unfold steady_a, c; coeff; lra).
  assert (HD : steady_b c (1 / 4) ^ 2 - 4 * steady_a c (1 / 4) * steady_c c >= 0)
    by (unfold steady_a, steady_b, steady_c, c; coeff; lra).
  split; [apply Rgt_not_eq; exact Ha|]. split; [exact HD|].
  assert (HX : 0 < compute_alpha_shear_steady c (1 / 4) < 100).
  { unfold compute_alpha_shear_steady.
    assert (HS : 30 <= sqrt (steady_b c (1 / 4) ^ 2 - 4 * steady_a c (1 / 4) * steady_c c) <= 40)
      by (apply sqrt_between; unfold steady_a, steady_b, steady_c, c; coeff; lra).
    set (q := sqrt _) in *. clearbody q.
    split; (apply (Rmult_lt_reg_r (steady_a c (1 / 4))); [exact Ha|]);
    match goal with |- context [?e / steady_a c (1 / 4) * steady_a c (1 / 4)] =>
      replace (e / steady_a c (1 / 4) * steady_a c (1 / 4)) with e by (field; apply Rgt_not_eq; exact Ha) end;
    unfold steady_a, steady_b, c; coeff; lra. }
  set (x := compute_alpha_shear_steady c (1 / 4)) in *. clearbody x.
  apply Rgt_not_eq. unfold eval_den, c. coeff. nra.
Qed.
(** the default critical value -1.2 is above the minimum of all three sets *)
Lemma buoy_min_upper : forall c B, d4 c + nb1 c > 0 -> d1 c + nb0 c - 2 * (d4 c + nb1 c) * B > 0 ->
  (d4 c + nb1 c) * B ^ 2 - (d1 c + nb0 c) * B + d0 c > 0 -> get_alpha_buoy_min c < - B.
Proof.
  intros c B HA Hpos HB. unfold get_alpha_buoy_min.
  set (A := d4 c + nb1 c) in *. set (b := d1 c + nb0 c) in *.
  assert (HS : sqrt (b ^ 2 - 4 * d0 c * A) < b - 2 * A * B).
  { rewrite <- (sqrt_square (b - 2 * A * B)) by lra.
    destruct (Rle_dec 0 (b ^ 2 - 4 * d0 c * A)) as [H|H].
    - apply sqrt_lt_1_alt. split; [exact H|nra].
    - rewrite (sqrt_neg_0 (b ^ 2 - 4 * d0 c * A)) by lra. rewrite sqrt_square by lra. exact Hpos. }
  apply (Rmult_lt_reg_r A); [exact HA|].
  replace (0.5 * (sqrt (b ^ 2 - 4 * d0 c * A) - b) / A * A)
    with (0.5 * (sqrt (b ^ 2 - 4 * d0 c * A) - b))
    by (generalize (0.5 * (sqrt (b ^ 2 - 4 * d0 c * A) - b)); intro; field; lra).
  nra.
Qed.
Theorem C39_default_crit_admissible :
  get_alpha_buoy_min (canuto_coeffs canutoA) < -1.2 /\ get_alpha_buoy_min (canuto_coeffs canutoB) < -1.2
  /\ get_alpha_buoy_min (cheng_coeffs cheng) < -1.2.
Proof.
  replace (-1.2) with (- (1.2)) by lra.
  repeat split; apply buoy_min_upper; coeff; lra.
Qed.
Example C39_kappa_example :
  compute_sigma_psi (compute_kappa 1.2 0.5 (-1) 1 2) 0.5 (-1) 1 2 = 1.2.
Proof. apply C39_kappa_sigma_inverse; lra. Qed.
Example C39_gotm_example : gnn gotm_canutoA <> 0 /\ gab3 gotm_canutoA = 2.
Proof. unfold gotm_canutoA, gotm_params; cbn. split; lra. Qed.

Theorem C39_positive_canuto_A : forall shear2 buoy2 k eps, shear2 >= 0 -> eps <> 0 ->
  let s := evaluate (canuto_coeffs canutoA) model_limits shear2 buoy2 k eps in
  fst s > 0 /\ snd s > 0.
Proof.
  intros M2 N2 k eps HM He; cbv zeta; apply (positive_eval _ 3.1); try assumption.
  - apply buoy_min_lower; coeff; lra.
  - intros aN HN. assert (Hq : 0 <= (aN + 3.1) ^ 2) by apply pow2_ge_0. coeff. repeat split; lra.
  - coeff; lra.
  - coeff; lra.
Qed.
Theorem C39_positive_canuto_B : forall shear2 buoy2 k eps, shear2 >= 0 -> eps <> 0 ->
  let s := evaluate (canuto_coeffs canutoB) model_limits shear2 buoy2 k eps in
  fst s > 0 /\ snd s > 0.
Proof.
  intros M2 N2 k eps HM He; cbv zeta; apply (positive_eval _ 3.6); try assumption.
  - apply buoy_min_lower; coeff; lra.
  - intros aN HN. assert (Hq : 0 <= (aN + 3.6) ^ 2) by apply pow2_ge_0. coeff. repeat split; lra.
  - coeff; lra.
  - coeff; lra.
Qed.
Theorem C39_positive_cheng : forall shear2 buoy2 k eps, shear2 >= 0 -> eps <> 0 ->
  let s := evaluate (cheng_coeffs cheng) model_limits shear2 buoy2 k eps in
  fst s > 0 /\ snd s > 0.
Proof.
  intros M2 N2 k eps HM He; cbv zeta; apply (positive_eval _ 2.8); try assumption.
  - apply buoy_min_lower; coeff; lra.
  - intros aN HN. assert (Hq : 0 <= (aN + 2.8) ^ 2) by apply pow2_ge_0. coeff. repeat split; lra.
  - coeff; lra.
  - coeff; lra.
Qed.


Print Assumptions C39_positive_canuto_A.
Print Assumptions C39_positive_cheng.
Print Assumptions C39_cmu0_cheng.
