(** C37: total depth with and without wetting and drying. *)
From Coq Require Import Reals List Lra Psatz.
From Verif Require Import Depth_Model.
Import ListNotations.
Open Scope R_scope.

Lemma sqrt_gt (H a : R) : 0 < a -> Rabs H < sqrt (H ^ 2 + a ^ 2).
Proof.
  intros Ha. rewrite <- sqrt_Rsqr_abs. apply sqrt_lt_1; unfold Rsqr; nra.
Qed.
Lemma sqrt_ge (H a : R) : Rabs H <= sqrt (H ^ 2 + a ^ 2).
Proof. rewrite <- sqrt_Rsqr_abs. apply sqrt_le_1; unfold Rsqr; nra. Qed.
Lemma sqrt_le_sum (H a : R) : 0 <= a -> sqrt (H ^ 2 + a ^ 2) <= Rabs H + a.
Proof.
  intros Ha. rewrite <- (sqrt_Rsqr (Rabs H + a)) by (pose proof (Rabs_pos H); lra). apply sqrt_le_1; unfold Rsqr.
  - nra. - pose proof (Rabs_pos H). nra.
  - replace (H ^ 2) with (Rabs H ^ 2) by (unfold Rabs; destruct (Rcase_abs H); ring). pose proof (Rabs_pos H). nra.
Qed.
Lemma sqrt_lipschitz (x y a : R) : x < y -> 0 < a -> Rabs (sqrt (y ^ 2 + a ^ 2) - sqrt (x ^ 2 + a ^ 2)) < y - x.
Proof.
  intros L Ha. pose proof (sqrt_gt x a Ha) as Gx. pose proof (sqrt_gt y a Ha) as Gy.
  set (sx := sqrt (x ^ 2 + a ^ 2)) in *. set (sy := sqrt (y ^ 2 + a ^ 2)) in *.
  assert (Ex : sx * sx = x ^ 2 + a ^ 2) by (apply sqrt_sqrt; nra). assert (Ey : sy * sy = y ^ 2 + a ^ 2) by (apply sqrt_sqrt; nra).
  clearbody sx sy. assert (Px : 0 < sx) by (pose proof (Rabs_pos x); lra). assert (Py : 0 < sy) by (pose proof (Rabs_pos y); lra).
  assert (E : (sy - sx) * (sy + sx) = (y - x) * (y + x)) by (ring_simplify; nra).
  apply Rabs_def2 in Gx. apply Rabs_def2 in Gy.
  apply Rabs_def1.
  - apply (Rmult_lt_reg_r (sy + sx)); [lra|]. rewrite E. apply Rmult_lt_compat_l; lra.
  - apply (Rmult_lt_reg_r (sy + sx)); [lra|]. rewrite E. nra.
Qed.

Definition wd (a : R) : depth_opts := mkDepth true true a.

(** With wetting and drying the total depth is positive for every bathymetry and
    elevation. *)
Theorem C37_depth_positive a h eta : 0 < a -> 0 < total_depth (wd a) h eta.
Proof.
  intros Ha. unfold total_depth, wd_displacement. cbn [wd nonlinear wetting alpha].
  pose proof (sqrt_gt (h + eta) a Ha) as G. apply Rabs_def2 in G. lra.
Qed.
(** It is at least max(h + eta, 0) and within alpha / 2 of it. *)
Theorem C37_depth_near_real_depth a h eta : 0 <= a ->
  Rmax (h + eta) 0 <= total_depth (wd a) h eta <= Rmax (h + eta) 0 + a / 2.
Proof.
  intros Ha. unfold total_depth, wd_displacement. cbn [wd nonlinear wetting alpha].
  pose proof (sqrt_ge (h + eta) a) as G. pose proof (sqrt_le_sum (h + eta) a Ha) as K.
  set (s := sqrt ((h + eta) ^ 2 + a ^ 2)) in *. clearbody s. set (H := h + eta) in *. clearbody H.
  unfold Rmax. destruct (Rle_dec H 0); unfold Rabs in *; destruct (Rcase_abs H); lra.
Qed.
(** It increases strictly with the elevation, but not faster than the elevation. *)
Theorem C37_depth_increasing a h eta1 eta2 : 0 < a -> eta1 < eta2 ->
  0 < total_depth (wd a) h eta2 - total_depth (wd a) h eta1 < eta2 - eta1.
Proof.
  intros Ha L. unfold total_depth, wd_displacement. cbn [wd nonlinear wetting alpha].
  pose proof (sqrt_lipschitz (h + eta1) (h + eta2) a ltac:(lra) Ha) as K. apply Rabs_def2 in K. lra.
Qed.
(** The same for the bathymetry. *)
Theorem C37_depth_increasing_in_bathymetry a h1 h2 eta : 0 < a -> h1 < h2 ->
  0 < total_depth (wd a) h2 eta - total_depth (wd a) h1 eta < h2 - h1.
Proof.
  intros Ha L. unfold total_depth, wd_displacement. cbn [wd nonlinear wetting alpha].
  pose proof (sqrt_lipschitz (h1 + eta) (h2 + eta) a ltac:(lra) Ha) as K. apply Rabs_def2 in K. lra.
Qed.
(** A larger alpha never gives a smaller depth. *)
Theorem C37_depth_monotone_in_alpha a b h eta : 0 <= a -> a <= b -> total_depth (wd a) h eta <= total_depth (wd b) h eta.
Proof.
  intros Ha L. unfold total_depth, wd_displacement. cbn [wd nonlinear wetting alpha].
  assert (sqrt ((h + eta) ^ 2 + a ^ 2) <= sqrt ((h + eta) ^ 2 + b ^ 2)) by (apply sqrt_le_1_alt; assert (a ^ 2 <= b ^ 2) by (apply pow_incr; lra); lra). lra.
Qed.
(** Without wetting and drying: h + eta, or the bathymetry for linear equations. *)
Theorem C37_other_options o h eta :
  (nonlinear o = true -> wetting o = false -> total_depth o h eta = h + eta) /\
  (nonlinear o = false -> total_depth o h eta = h).
Proof. unfold total_depth, wd_displacement. split; intros ->; [intros ->; ring|reflexivity]. Qed.

(** The mass term integrates the water column: total depth minus bathymetry. *)
Theorem C37_mass_is_depth_minus_bathymetry o h eta : nonlinear o = true -> mass_integrand o h eta = total_depth o h eta - h.
Proof. intros E. unfold mass_integrand, total_depth. rewrite E. ring. Qed.
(** Refuted: with linear equations the option wetting-drying still displaces the
    mass term, although the depth does not contain the displacement. *)
Theorem C37_linear_mass_refuted : exists o h eta, nonlinear o = false /\ mass_integrand o h eta <> eta.
Proof.
  exists (mkDepth false true 1), 0, 0. split; [reflexivity|]. unfold mass_integrand, wd_displacement. cbn [wetting alpha].
  pose proof (sqrt_gt (0 + 0) 1 ltac:(lra)) as G. apply Rabs_def2 in G. lra.
Qed.

(** The automatic parameter lies within the configured bounds (nodal values and
    everywhere between them) ... *)
Theorem C37_alpha_within_bounds mn mx a : mn <= mx -> mn <= capped_alpha (Some mn) (Some mx) a <= mx.
Proof. intros L. unfold capped_alpha, Rmax, Rmin. destruct (Rle_dec mx a); destruct (Rle_dec mn _); lra. Qed.
Theorem C37_alpha_one_bound b a : capped_alpha None (Some b) a <= b /\ b <= capped_alpha (Some b) None a /\ capped_alpha None None a = a.
Proof. unfold capped_alpha. split; [apply Rmin_l|]. split; [apply Rmax_l|reflexivity]. Qed.
Theorem C37_interpolated_alpha_within_bounds lo hi ws nodal :
  length ws = length nodal -> Forall (fun w => 0 <= w) ws -> fold_right Rplus 0 ws = 1 -> Forall (fun a => lo <= a <= hi) nodal ->
  lo <= interpolate_p1 ws nodal <= hi.
Proof.
  intros L W S A. assert (G : lo * fold_right Rplus 0 ws <= interpolate_p1 ws nodal <= hi * fold_right Rplus 0 ws).
  { clear S. revert nodal L A. induction W as [|w ws Hw W IH]; intros [|a nodal] L A; try discriminate; cbn; [lra|].
    inversion A; subst. injection L as L. specialize (IH nodal L H2). unfold interpolate_p1 in IH. split; nra. }
  rewrite S in G. lra.
Qed.
(** ... unless the bounds are in the wrong order: then the minimum wins and the
    maximum is exceeded. *)
Theorem C37_alpha_crossed_bounds_refuted : exists mn mx a, capped_alpha (Some mn) (Some mx) a > mx.
Proof. exists 2, 1, 0. unfold capped_alpha, Rmax, Rmin. destruct (Rle_dec 1 0); destruct (Rle_dec 2 _); lra. Qed.
(** Refuted: alpha = 0 (for instance the automatic value over a flat bed without
    a minimum) passes the validity check, but then a dry point has zero depth. *)
Theorem C37_zero_alpha_refuted : alpha_accepted [capped_alpha None None 0] /\ exists h eta, total_depth (wd (capped_alpha None None 0)) h eta = 0.
Proof.
  split; [repeat constructor; cbn; lra|]. exists 0, (-1). unfold capped_alpha, total_depth, wd_displacement. cbn [wd nonlinear wetting alpha].
  replace ((0 + -1) ^ 2 + 0 ^ 2) with (1 * 1) by ring. rewrite sqrt_square by lra. lra.
Qed.

(** Case: a dry point, one metre above the water, with alpha = 3/4: the depth is
    1/8. *)
Example C37_case : total_depth (wd (3 / 4)) (-2) 1 = 1 / 8 /\ 0 < 3 / 4 /\ Rmax (-2 + 1) 0 = 0.
Proof.
  unfold total_depth, wd_displacement. cbn [wd nonlinear wetting alpha].
  replace ((-2 + 1) ^ 2 + (3 / 4) ^ 2) with (5 / 4 * (5 / 4)) by field. rewrite sqrt_square by lra.
  split; [lra|]. split; [lra|]. unfold Rmax. destruct (Rle_dec (-2 + 1) 0); lra.
Qed.

Print Assumptions C37_depth_positive.
Print Assumptions C37_depth_near_real_depth.
Print Assumptions C37_depth_increasing.
Print Assumptions C37_depth_increasing_in_bathymetry.
Print Assumptions C37_depth_monotone_in_alpha.
Print Assumptions C37_other_options.
Print Assumptions C37_mass_is_depth_minus_bathymetry.
Print Assumptions C37_linear_mass_refuted.
Print Assumptions C37_alpha_within_bounds.
Print Assumptions C37_alpha_one_bound.
Print Assumptions C37_interpolated_alpha_within_bounds.
Print Assumptions C37_alpha_crossed_bounds_refuted.
Print Assumptions C37_zero_alpha_refuted.
