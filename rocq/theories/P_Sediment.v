(** C43: sediment exchange between the bed and the water column. *)
From Coq Require Import Reals List String Bool Lra Lia Psatz.
From Verif Require Import Sediment_Model.
Import ListNotations.
Open Scope R_scope.

Lemma Rpower_pos : forall x y, 0 < Rpower x y.
Proof. intros. unfold Rpower. apply exp_pos. Qed.
Lemma inv_pos : forall x, 0 < x -> 0 < / x.
Proof. exact Rinv_0_lt_compat. Qed.
Lemma div_pos : forall x y, 0 < x -> 0 < y -> 0 < x / y.
Proof. intros. apply Rmult_lt_0_compat; [assumption|apply inv_pos; assumption]. Qed.
Lemma div_nonneg : forall x y, 0 <= x -> 0 < y -> 0 <= x / y.
Proof. intros. apply Rmult_le_pos; [assumption|left; apply inv_pos; assumption]. Qed.
Lemma cond_gt_cases : forall a b x y (P : R -> Prop), (b < a -> P x) -> (a <= b -> P y) -> P (conditional_gt a b x y).
Proof. intros. unfold conditional_gt. destruct (Rlt_dec b a); [auto|apply H0; lra]. Qed.

(** ** exchange *)
(** The sediment volume per unit area: suspended, H times concentration or the
    depth-integrated concentration, and in the bed, minus (1 - porosity) times the
    bathymetry (which is positive downwards). *)
Definition suspended_rate (conservative : bool) (H rate : R) : R := if conservative then rate else H * rate.
Definition bed_rate (porosity bathymetry_rate : R) : R := - (1 - porosity) * bathymetry_rate.

(** erosion and deposition move sediment between bed and water column without loss; with a
    morphological acceleration factor m the bed moves m times faster *)
Theorem C43_exchange_conserves_sediment : forall conservative ero depo H s m p,
  0 < H -> p < 1 ->
  bed_rate p (exner_source conservative m p ero depo H s)
  = - m * suspended_rate conservative H
            (sediment_erosion conservative ero H + sediment_deposition depo H s).
Proof.
  intros c ero depo H s m p HH Hp.
  unfold bed_rate, exner_source, suspended_rate, sediment_erosion, sediment_deposition.
  destruct c; field; lra.
Qed.
Corollary exchange_total_zero : forall conservative ero depo H s p, 0 < H -> p < 1 ->
  bed_rate p (exner_source conservative 1 p ero depo H s)
  + suspended_rate conservative H (sediment_erosion conservative ero H + sediment_deposition depo H s) = 0.
Proof. intros. rewrite C43_exchange_conserves_sediment by assumption. ring. Qed.

(** the two tracer forms describe the same exchange *)
Theorem C43_forms_agree : forall ero depo H c m p, 0 < H -> p < 1 ->
  exner_source true m p ero depo H (H * c) = exner_source false m p ero depo H c
  /\ sediment_erosion true ero H + sediment_deposition depo H (H * c)
     = H * (sediment_erosion false ero H + sediment_deposition depo H c).
Proof.
  intros. unfold exner_source, sediment_erosion, sediment_deposition. split; field; lra.
Qed.

(** the equilibrium concentration is the one with no net exchange; above it the bed
    accretes, below it is eroded *)
Theorem C43_equilibrium : forall ws ec ir H c m p, 0 < ws -> 0 < ir -> 0 < H -> 0 < m -> p < 1 ->
  let e := exner_source false m p (erosion_term ws ec) (deposition_coefficient ws ir) H c in
  (e = 0 <-> c = equilibrium_tracer ec ir)
  /\ (c > equilibrium_tracer ec ir <-> e < 0).
Proof.
  intros ws ec ir H c m p Hw Hi HH Hm Hp e.
  assert (E : e = - (m / (1 - p) * (ws * ir)) * (c - equilibrium_tracer ec ir)).
  { unfold e, exner_source, erosion_term, deposition_coefficient, equilibrium_tracer. field. lra. }
  assert (K : 0 < m / (1 - p) * (ws * ir)).
  { apply Rmult_lt_0_compat; [apply div_pos; lra|apply Rmult_lt_0_compat; assumption]. }
  set (k := m / (1 - p) * (ws * ir)) in *. set (q := equilibrium_tracer ec ir) in *.
  split; split; intro HX; rewrite E in *; nra.
Qed.
(** in a well mixed box, backward Euler moves the concentration towards the equilibrium
    without overshoot, for every time step *)
Theorem C43_relaxation : forall ws ec ir H dt c c', 0 < ws -> 0 < ir -> 0 < H -> 0 < dt ->
  c' - c = dt * (sediment_erosion false (erosion_term ws ec) H
                 + sediment_deposition (deposition_coefficient ws ir) H c') ->
  let q := equilibrium_tracer ec ir in
  (c <= q -> c <= c' <= q) /\ (q <= c -> q <= c' <= c).
Proof.
  intros ws ec ir H dt c c' Hw Hi HH Hd E q.
  set (k := dt * (ws * ir / H)).
  assert (K : 0 < k) by (apply Rmult_lt_0_compat; [assumption|apply div_pos; [apply Rmult_lt_0_compat|]; assumption]).
  assert (E' : c' - c = k * (q - c')).
  { rewrite E. unfold k, q, sediment_erosion, sediment_deposition, erosion_term, deposition_coefficient, equilibrium_tracer. field. lra. }
  split; intro HX; nra.
Qed.
(** the suspended concentration stays non-negative in that box *)
Theorem C43_concentration_nonnegative : forall ws ec ir H dt c c', 0 < ws -> 0 < ir -> 0 < H -> 0 < dt ->
  0 <= ec -> 0 <= c ->
  c' - c = dt * (sediment_erosion false (erosion_term ws ec) H
                 + sediment_deposition (deposition_coefficient ws ir) H c') -> 0 <= c'.
Proof.
  intros ws ec ir H dt c c' Hw Hi HH Hd He Hc E.
  destruct (C43_relaxation ws ec ir H dt c c' Hw Hi HH Hd E) as (A & B).
  assert (0 <= equilibrium_tracer ec ir) by (apply div_nonneg; assumption).
  destruct (Rle_dec c (equilibrium_tracer ec ir)) as [L|L]; [specialize (A L)|specialize (B ltac:(lra))]; lra.
Qed.

(** ** ranges of the coefficients *)
Lemma ln_pos : forall x, 1 < x -> 0 < ln x.
Proof. intros. rewrite <- ln_1. apply ln_increasing; lra. Qed.
Theorem C43_friction_positive : forall depth zref, 0 < zref -> 0 < qfc depth zref.
Proof.
  intros d z Hz. unfold qfc, kappa.
  set (hc := conditional_gt d 0.001 d 0.001). set (aux := conditional_gt (11.036 * hc / z) 1.001 _ _).
  assert (1 < aux) by (unfold aux; apply cond_gt_cases; intros; lra).
  apply div_pos; [lra|]. apply pow_lt. apply div_pos; [apply ln_pos; assumption|lra].
Qed.
Theorem C43_mu_nonnegative : forall depth zref ksp, 0 < zref -> 0 < ksp -> 0 <= mu depth zref ksp.
Proof.
  intros d z k Hz Hk. unfold mu. apply cond_gt_cases; intros H; [|lra].
  apply div_nonneg; [|exact H]. unfold cfactor. apply cond_gt_cases; intros H1; [|lra].
  assert (1 < 11.036 * d / k).
  { apply (Rmult_lt_reg_r k); [exact Hk|]. unfold Rdiv. rewrite Rmult_assoc, Rinv_l by lra. lra. }
  assert (0 < (1 / kappa * ln (11.036 * d / k)) ^ 2).
  { apply pow_lt. apply Rmult_lt_0_compat; [unfold kappa; lra|apply ln_pos; assumption]. }
  left. apply Rmult_lt_0_compat; [lra|apply inv_pos; assumption].
Qed.
(** critical Shields parameter for the accepted grain sizes *)
Theorem C43_thetacr_range : forall d, 1 <= d -> 0 < thetacr d <= 0.24.
Proof.
  intros d Hd. unfold thetacr.
  assert (N : forall e, e <= 0 -> Rpower d e <= 1).
  { intros e He. rewrite <- (Rpower_O d) by lra. apply Rle_Rpower; lra. }
  assert (M : d < 150 -> Rpower d (29 / 100) <= 18).
  { intro H. apply Rle_trans with (Rpower 324 (1 / 2)).
    - apply Rle_trans with (Rpower d (1 / 2)); [apply Rle_Rpower; lra|]. apply Rle_Rpower_l; lra.
    - replace (1 / 2) with (/ 2) by lra. rewrite Rpower_sqrt by lra.
      replace 324 with (18 * 18) by ring. rewrite sqrt_square by lra. lra. }
  pose proof (Rpower_pos d (-1)). pose proof (Rpower_pos d (- (64 / 100))).
  pose proof (Rpower_pos d (- (1 / 10))). pose proof (Rpower_pos d (29 / 100)).
  destruct (Rlt_dec d 4); [specialize (N (-1) ltac:(lra)); lra|].
  destruct (Rlt_dec d 10); [specialize (N (- (64 / 100)) ltac:(lra)); lra|].
  destruct (Rlt_dec d 20); [specialize (N (- (1 / 10)) ltac:(lra)); lra|].
  destruct (Rlt_dec d 150); [specialize (M ltac:(lra)); lra|lra].
Qed.
Theorem C43_settling_velocity_positive : forall size rhos visc, 0 < size -> rho0 < rhos -> 0 < visc ->
  0 < settling_velocity size rhos visc.
Proof.
  intros s r v Hs Hr Hv. unfold settling_velocity, g_grav, rel_density, rho0 in *.
  assert (HR : 0 < r / 1000 - 1) by lra. set (q := r / 1000 - 1) in *.
  assert (S2 : 0 < s ^ 2) by (apply pow_lt; exact Hs). assert (S3 : 0 < s ^ 3) by (apply pow_lt; exact Hs).
  assert (V2 : 0 < v ^ 2) by (apply pow_lt; exact Hv).
  destruct (Rle_dec s (1 / 10000)).
  - apply div_pos; [|lra]. apply Rmult_lt_0_compat; [|exact HR]. lra.
  - destruct (Rle_dec s (1 / 1000)).
    + apply Rmult_lt_0_compat; [apply div_pos; lra|].
      assert (0 < q * 9.81 * s ^ 3 / v ^ 2) by (apply div_pos; [apply Rmult_lt_0_compat; [lra|assumption]|assumption]).
      assert (1 < sqrt (1 + 0.01 * (q * 9.81 * s ^ 3 / v ^ 2))); [|lra].
      rewrite <- sqrt_1 at 1. apply sqrt_lt_1; lra.
    + apply Rmult_lt_0_compat; [lra|]. apply sqrt_lt_R0. apply Rmult_lt_0_compat; [lra|exact HR].
Qed.
Lemma Bfac_range : forall a depth, 0 < a -> 0 < Bfac a depth <= 1.
Proof.
  intros a d Ha. unfold Bfac. apply cond_gt_cases; intro H; [lra|].
  split; [apply div_pos; lra|]. apply (Rmult_le_reg_r d); [lra|]. unfold Rdiv. rewrite Rmult_assoc, Rinv_l by lra. lra.
Qed.
(** the Rouse integral is non-negative, so the near-bed concentration is at least the
    depth-averaged one *)
Theorem C43_rouse_range : forall a depth rouse, 0 < a ->
  0 <= intermediate_step (Bfac a depth) rouse
  /\ 1 <= integrated_rouse (intermediate_step (Bfac a depth) rouse) <= 10 ^ 12.
Proof.
  intros a d r Ha. destruct (Bfac_range a d Ha) as (B0 & B1). set (b := Bfac a d) in *.
  split.
  - unfold intermediate_step. apply cond_gt_cases; intro H.
    + set (k := Rmin r 3).
      assert (Hk : k <> 0).
      { unfold k, Rmin. destruct (Rle_dec r 3); [|lra]. intro F. subst r. rewrite Rabs_R0 in H. lra. }
      assert (L : ln b <= 0).
      { destruct (Req_dec b 1) as [Q|Q]; [rewrite Q, ln_1; lra|]. left. rewrite <- ln_1. apply ln_increasing; lra. }
      assert (E : 0 <= (1 - Rpower b k) / k).
      { unfold Rpower. destruct (Rtotal_order k 0) as [K|[K|K]]; [|contradiction|].
        - assert (1 <= exp (k * ln b)).
          { rewrite <- exp_0 at 1. destruct (Req_dec (k * ln b) 0) as [Q|Q]; [rewrite Q; lra|]. left. apply exp_increasing. nra. }
          replace ((1 - exp (k * ln b)) / k) with ((exp (k * ln b) - 1) / (- k)) by (field; lra).
          apply div_nonneg; lra.
        - assert (exp (k * ln b) <= 1).
          { rewrite <- exp_0 at 1. destruct (Req_dec (k * ln b) 0) as [Q|Q]; [rewrite Q; lra|]. left. apply exp_increasing. nra. }
          apply div_nonneg; lra. }
      replace (b * (1 - Rpower b k) / k) with (b * ((1 - Rpower b k) / k)) by (field; exact Hk).
      apply Rmult_le_pos; lra.
    + assert (L : ln b <= 0).
      { destruct (Req_dec b 1) as [Q|Q]; [rewrite Q, ln_1; lra|]. left. rewrite <- ln_1. apply ln_increasing; lra. }
      nra.
  - unfold integrated_rouse. split; [apply Rmax_r|]. apply Rmax_lub; [|lra].
    apply cond_gt_cases; intro H; [|lra]. unfold tiny in H. unfold Rdiv. rewrite Rmult_1_l.
    rewrite <- (Rinv_inv (10 ^ 12)). apply Rinv_le_contravar; [|lra]. apply inv_pos. lra.
Qed.
(** erosion happens exactly when the skin stress exceeds the critical stress *)
Theorem C43_erosion_threshold : forall size a tau tcr d, 0 < size -> 0 < a -> 0 < tcr ->
  0 <= erosion_concentration size a (transport_stage tau tcr) d
  /\ (0 < erosion_concentration size a (transport_stage tau tcr) d <-> tcr < tau).
Proof.
  intros s a tau tcr d Hs Ha Ht.
  set (st := transport_stage tau tcr).
  assert (K : 0 < 0.015 * (s / a) / Rpower d (3 / 10)).
  { apply div_pos; [|apply Rpower_pos]. apply Rmult_lt_0_compat; [lra|apply div_pos; assumption]. }
  assert (E : erosion_concentration s a st d = (0.015 * (s / a) / Rpower d (3 / 10)) * pow15 (Rmax st 0)).
  { unfold erosion_concentration. set (c := 0.015 * (s / a)). field. apply Rgt_not_eq. apply Rpower_pos. }
  set (k := 0.015 * (s / a) / Rpower d (3 / 10)) in *. rewrite E. clearbody k.
  assert (P : 0 <= pow15 (Rmax st 0)).
  { unfold pow15. apply Rmult_le_pos; [apply Rmax_r|apply sqrt_pos]. }
  assert (S : 0 < st <-> tcr < tau).
  { unfold st, transport_stage. apply cond_gt_cases; intro H.
    - split; intro Q.
      + apply Rnot_le_lt. intro F. assert ((tau - tcr) / tcr <= 0); [|lra].
        unfold Rdiv. assert (0 < / tcr) by (apply inv_pos; exact Ht). nra.
      + apply div_pos; lra.
    - split; intro; lra. }
  split; [nra|]. rewrite <- S. split; intro H.
  - apply Rnot_le_lt. intro F. unfold Rmax in H. destruct (Rle_dec st 0); [|lra].
    unfold pow15 in H. rewrite Rmult_0_l in H. lra.
  - apply Rmult_lt_0_compat; [exact K|]. unfold Rmax. destruct (Rle_dec st 0); [lra|].
    unfold pow15. apply Rmult_lt_0_compat; [exact H|apply sqrt_lt_R0; exact H].
Qed.

(** ** advective velocity correction *)
Theorem C43_velocity_factor_range : forall A r, 0 <= velocity_correction_factor A r <= 1.
Proof.
  intros. unfold velocity_correction_factor. split; [apply Rmax_r|]. apply Rmax_lub; [apply Rmin_r|lra].
Qed.
Lemma conv_ratio_range : forall depth z, 0 < z -> 0 < conv_ratio depth z <= 1 / 1.1.
Proof.
  intros d z Hz. unfold conv_ratio. apply cond_gt_cases; intro H; [|lra].
  split; [apply div_pos; lra|]. apply (Rmult_le_reg_r d); [lra|]. unfold Rdiv. rewrite (Rmult_assoc z), Rinv_l by lra. lra.
Qed.
Theorem C43_reference_ratio_range : forall depth ksp a, 0 < ksp -> 0 < a -> 0 < amax depth ksp a < 1.
Proof.
  intros d k a Hk Ha. unfold amax. pose proof (conv_ratio_range d k Hk). pose proof (conv_ratio_range d a Ha).
  apply cond_gt_cases; intros; lra.
Qed.
(** The integral of z^(r-1) over [A, 1] is positive.  The code computes (1 - A^r)/r for
    r away from zero, which is, but for |r| <= 1e-8 it takes ln A, which is the limit with
    the wrong sign. *)
Theorem C43_first_integral : forall A r, 0 < A < 1 ->
  (eps8 < Rabs r -> 0 < i_one A r) /\ (Rabs r <= eps8 -> i_one A r = ln A /\ i_one A r < 0).
Proof.
  intros A r HA.
  assert (L : ln A < 0) by (rewrite <- ln_1; apply ln_increasing; lra).
  assert (E8 : 0 < eps8) by (unfold eps8; apply inv_pos; lra).
  assert (POS : r <> 0 -> 0 < (1 - Rpower A r) / r).
  { intro Hr. unfold Rpower. destruct (Rtotal_order r 0) as [K|[K|K]]; [|contradiction|].
    - assert (1 < exp (r * ln A)) by (rewrite <- exp_0 at 1; apply exp_increasing; nra).
      replace ((1 - exp (r * ln A)) / r) with ((exp (r * ln A) - 1) / (- r)) by (field; lra). apply div_pos; lra.
    - assert (exp (r * ln A) < 1) by (rewrite <- exp_0; apply exp_increasing; nra). apply div_pos; lra. }
  unfold i_one, conditional_gt. split; intro H; destruct (Rlt_dec eps8 r) as [Q|Q]; try (apply POS; lra).
  - destruct (Rlt_dec r (- eps8)) as [Q'|Q']; [apply POS; lra|].
    exfalso. unfold Rabs in H. destruct (Rcase_abs r); lra.
  - exfalso. unfold Rabs in H. destruct (Rcase_abs r); lra.
  - destruct (Rlt_dec r (- eps8)) as [Q'|Q']; [exfalso; unfold Rabs in H; destruct (Rcase_abs r); lra|].
    split; [reflexivity|exact L].
Qed.
Theorem C43_first_integral_continuous_refuted : exists A, 0 < A < 1 /\
  i_one A 0 < 0 /\ forall r, eps8 < r -> 0 < i_one A r.
Proof.
  exists (1 / 2). destruct (C43_first_integral (1 / 2) 0 ltac:(lra)) as (_ & H).
  assert (E8 : 0 < eps8) by (unfold eps8; apply inv_pos; lra).
  split; [lra|]. split; [apply H; rewrite Rabs_R0; lra|].
  intros r Hr. apply C43_first_integral; [lra|]. rewrite Rabs_right; lra.
Qed.

(** ** bedload *)
Definition physical (i : bedload_input) : Prop :=
  0 < unorm i /\ 0 < bl_qfc i /\ 0 <= bl_mu i /\ rho0 < bl_rhos i /\ 0 < bl_size i /\ 0 < bl_thetacr i.
Lemma unit_direction : forall i, 0 < unorm i -> calfa i ^ 2 + salfa i ^ 2 = 1.
Proof.
  intros i H. unfold calfa, salfa. assert (0 < sqrt (unorm i)) by (apply sqrt_lt_R0; exact H).
  assert (E : sqrt (unorm i) ^ 2 = unorm i) by (rewrite <- Rsqr_pow2; apply Rsqr_sqrt; lra).
  replace ((bl_u i / sqrt (unorm i)) ^ 2 + (bl_v i / sqrt (unorm i)) ^ 2)
     with ((bl_u i ^ 2 + bl_v i ^ 2) / sqrt (unorm i) ^ 2) by (field; lra).
  rewrite E. change (bl_u i ^ 2 + bl_v i ^ 2) with (unorm i). field. lra.
Qed.
Lemma stress_pos : forall i, physical i -> 0 < stress i.
Proof.
  intros i (H1 & H2 & _). unfold stress, bed_stress, rho0.
  apply Rmult_lt_0_compat; [|exact H1]. apply Rmult_lt_0_compat; [lra|exact H2].
Qed.
(** transport starts at the critical Shields number *)
Theorem C43_bedload_threshold : forall i, physical i ->
  0 <= phi i /\ (0 < phi i <-> bl_thetacr i < thetaprime i).
Proof.
  intros i _. unfold phi, pow15. destruct (Rlt_dec (thetaprime i) (bl_thetacr i)) as [H|H].
  - split; [lra|]. split; intro; lra.
  - set (x := thetaprime i - bl_thetacr i). assert (0 <= x) by (unfold x; lra). split.
    + assert (0 <= x * sqrt x) by (apply Rmult_le_pos; [assumption|apply sqrt_pos]). lra.
    + split; intro Q.
      * apply Rnot_le_lt. intro F. assert (x = 0) by (unfold x in *; lra). rewrite H1, Rmult_0_l in Q. lra.
      * assert (0 < x) by (unfold x; lra). assert (0 < sqrt x) by (apply sqrt_lt_R0; assumption). nra.
Qed.
(** with no correction bedload is along the flow, with the Meyer-Peter-Mueller magnitude *)
Theorem C43_bedload_uncorrected : forall i, physical i ->
  let o := mkBo false false false in
  let q := phi i * bedload_scale i in
  0 <= q /\ fst (bedload o i) ^ 2 + snd (bedload o i) ^ 2 = q ^ 2
  /\ fst (bedload o i) * bl_v i = snd (bedload o i) * bl_u i
  /\ 0 <= fst (bedload o i) * bl_u i + snd (bedload o i) * bl_v i.
Proof.
  intros i Hi o q. pose proof (C43_bedload_threshold i Hi) as (Hp & _). destruct Hi as (Hu & _).
  assert (Hq : 0 <= q) by (apply Rmult_le_pos; [exact Hp|apply sqrt_pos]).
  pose proof (unit_direction i Hu) as E. assert (S : 0 < sqrt (unorm i)) by (apply sqrt_lt_R0; exact Hu).
  cbn [bedload o o_angle o_secondary andb negb fst snd slopecoef o_slope].
  unfold slopecoef. cbn [o_slope]. rewrite Rmult_1_l. fold q.
  split; [exact Hq|]. split; [|split].
  - replace ((q * calfa i) ^ 2 + (q * salfa i) ^ 2) with (q ^ 2 * (calfa i ^ 2 + salfa i ^ 2)) by ring. rewrite E. ring.
  - unfold calfa, salfa. field. lra.
  - replace (q * calfa i * bl_u i + q * salfa i * bl_v i) with (q * ((bl_u i ^ 2 + bl_v i ^ 2) / sqrt (unorm i)))
      by (unfold calfa, salfa; field; lra).
    apply Rmult_le_pos; [exact Hq|]. change (bl_u i ^ 2 + bl_v i ^ 2) with (unorm i). apply div_nonneg; lra.
Qed.
(** over a flat bed the slope and angle corrections change nothing *)
Theorem C43_flat_bed_no_correction : forall i slope angle, physical i ->
  bl_zx i = 0 -> bl_zy i = 0 -> bl_zox i = 0 -> bl_zoy i = 0 ->
  bedload (mkBo slope angle false) i = bedload (mkBo false false false) i.
Proof.
  intros i slope angle (Hu & _) Z1 Z2 Z3 Z4. pose proof (unit_direction i Hu) as E.
  assert (SC : forall b, slopecoef (mkBo b angle false) i = 1).
  { intros b. unfold slopecoef. cbn [o_slope]. destruct b; [|reflexivity]. rewrite Z1, Z2. ring. }
  assert (SC0 : slopecoef (mkBo false false false) i = 1) by reflexivity.
  assert (AN : angle_norm i = 1).
  { unfold angle_norm. rewrite Z3, Z4.
    replace ((salfa i + tt1 i * 0) ^ 2 + (calfa i + tt1 i * 0) ^ 2) with (calfa i ^ 2 + salfa i ^ 2) by ring.
    rewrite E, sqrt_1. unfold conditional_gt, eps10. destruct (Rlt_dec (/ 10 ^ 10) 1) as [_|F]; [reflexivity|].
    exfalso. apply F. rewrite <- Rinv_1. apply Rinv_lt_contravar; lra. }
  assert (CM : calfamod i = calfa i /\ salfamod i = salfa i).
  { unfold calfamod, salfamod. rewrite AN, Z1, Z2. split; field. }
  destruct CM as (C1 & C2).
  unfold bedload. cbn [o_angle o_secondary andb negb]. rewrite SC, SC0.
  destruct angle; cbn [andb]; [rewrite C1, C2|]; reflexivity.
Qed.
(** the secondary current rotates the transport, and does nothing where the free surface is
    not inclined across the flow *)
Theorem C43_secondary_current : forall o i, physical i -> o_secondary o = true -> 0 < t_4 o i ->
  bedload o i = (t_1 o i / stress i * phi i * bedload_scale i, t_2 o i / stress i * phi i * bedload_scale i)
  /\ (velocity_slide i = 0 ->
      bedload o i = bedload (mkBo (o_slope o) (o_angle o) false) i).
Proof.
  intros o i Hi Ho H4. pose proof (stress_pos i Hi) as Hs.
  assert (E : bedload o i = (t_1 o i / stress i * phi i * bedload_scale i, t_2 o i / stress i * phi i * bedload_scale i)).
  { unfold bedload. rewrite Ho. rewrite Bool.andb_false_r. f_equal; field; lra. }
  split; [exact E|]. intro Hv. rewrite E. unfold t_1, t_2. rewrite Hv.
  unfold bedload. cbn [o_angle o_secondary negb].
  assert (SC : slopecoef (mkBo (o_slope o) (o_angle o) false) i = slopecoef o i) by reflexivity.
  rewrite SC. destruct (o_angle o); cbn [andb]; f_equal; field; lra.
Qed.

(** ** sediment slide: a diffusion acting only on slopes above the maximal angle *)
Definition slope_tan (dzdx dzdy : R) : R := sqrt (dzdx ^ 2 + dzdy ^ 2).
Lemma slide_geometry : forall dzdx dzdy, let g2 := dzdx ^ 2 + dzdy ^ 2 in
  let nz := 1 / sqrt (1 + g2) in
  0 < nz /\ nz ^ 2 = 1 / (1 + g2) /\ sqrt (1 - nz ^ 2) = slope_tan dzdx dzdy * nz
  /\ sqrt (1 - nz ^ 2) / nz = slope_tan dzdx dzdy.
Proof.
  intros x y g2 nz. assert (G : 0 <= g2) by (unfold g2; assert (A := pow2_ge_0 x); assert (B := pow2_ge_0 y); lra).
  assert (S : 0 < sqrt (1 + g2)) by (apply sqrt_lt_R0; lra).
  assert (E2 : sqrt (1 + g2) ^ 2 = 1 + g2) by (rewrite <- Rsqr_pow2; apply Rsqr_sqrt; lra).
  assert (N : 0 < nz) by (apply div_pos; lra).
  assert (N2 : nz ^ 2 = 1 / (1 + g2)).
  { unfold nz. replace ((1 / sqrt (1 + g2)) ^ 2) with (1 / sqrt (1 + g2) ^ 2) by (field; lra). rewrite E2. reflexivity. }
  assert (Q : sqrt (1 - nz ^ 2) = slope_tan x y * nz).
  { unfold slope_tan. fold g2. rewrite N2. replace (1 - 1 / (1 + g2)) with (g2 * nz ^ 2) by (rewrite N2; field; lra).
    rewrite sqrt_mult by (try exact G; apply pow2_ge_0). f_equal. rewrite sqrt_pow2; lra. }
  repeat split; try assumption. rewrite Q. field. lra.
Qed.
(** the cosine of the code takes the time step inside its argument; where that cosine is
    positive the coefficient has the sign of a diffusion (negative, in the sign convention
    of the term) exactly on slopes that are too steep *)
Theorem C43_slide_only_steep : forall ma L p dt m dzdx dzdy,
  slope_tan dzdx dzdy <= tan (ma * PI / 180) ->
  slide_coefficient ma L p dt m dzdx dzdy = 0.
Proof.
  intros ma L p dt m x y H. unfold slide_coefficient.
  destruct (slide_geometry x y) as (N & N2 & Q & T). set (nz := 1 / sqrt (1 + (x ^ 2 + y ^ 2))) in *.
  rewrite T. destruct (Rlt_dec 0 (slope_tan x y - tan (ma * PI / 180))); [lra|].
  destruct (Rlt_dec 0 (sqrt (1 - nz ^ 2))); [|reflexivity]. unfold Rdiv. ring.
Qed.
Theorem C43_slide_diffusive : forall ma L p dt m dzdx dzdy, 0 < L -> p < 1 ->
  0 <= tan (ma * PI / 180) < slope_tan dzdx dzdy ->
  0 < cos (asin (sqrt (1 - (1 / sqrt (1 + (dzdx ^ 2 + dzdy ^ 2))) ^ 2)) * dt * m) ->
  slide_coefficient ma L p dt m dzdx dzdy < 0.
Proof.
  intros ma L p dt m x y HL Hp (H0 & H) Hc. unfold slide_coefficient.
  destruct (slide_geometry x y) as (N & N2 & Q & T). set (nz := 1 / sqrt (1 + (x ^ 2 + y ^ 2))) in *.
  rewrite T. destruct (Rlt_dec 0 (slope_tan x y - tan (ma * PI / 180))) as [D|]; [|lra].
  assert (S : 0 < sqrt (1 - nz ^ 2)) by (rewrite Q; apply Rmult_lt_0_compat; [lra|exact N]).
  destruct (Rlt_dec 0 (sqrt (1 - nz ^ 2))); [|lra].
  set (qv := (1 - p) * (1 / 2) * L ^ 2 * (slope_tan x y - tan (ma * PI / 180)) / cos _).
  assert (0 < qv).
  { apply div_pos; [|exact Hc]. apply Rmult_lt_0_compat; [|exact D]. assert (0 < L ^ 2) by (apply pow_lt; exact HL). nra. }
  assert (0 < qv * nz ^ 2 / sqrt (1 - nz ^ 2)).
  { apply div_pos; [|exact S]. apply Rmult_lt_0_compat; [assumption|apply pow_lt; exact N]. }
  replace (- qv * nz ^ 2 / sqrt (1 - nz ^ 2)) with (- (qv * nz ^ 2 / sqrt (1 - nz ^ 2))) by (unfold Rdiv; ring). lra.
Qed.
(** but a steep slope can be made steeper: with a slope of 45 degrees and time step times
    morphological factor equal to 4 the coefficient is positive *)
Theorem C43_slide_antidiffusive_refuted : exists ma L p dt m dzdx dzdy, 0 < L /\ 0 <= p < 1 /\ 0 < dt /\ 0 < m /\
  0 <= tan (ma * PI / 180) < slope_tan dzdx dzdy /\ 0 < slide_coefficient ma L p dt m dzdx dzdy.
Proof.
  exists 0, 1, 0, 4, 1, 1, 0.
  assert (T0 : tan (0 * PI / 180) = 0) by (replace (0 * PI / 180) with 0 by (unfold Rdiv; ring); apply tan_0).
  assert (ST : slope_tan 1 0 = 1).
  { unfold slope_tan. replace (1 ^ 2 + 0 ^ 2) with 1 by ring. apply sqrt_1. }
  repeat split; try lra; try (rewrite T0, ?ST; lra).
  unfold slide_coefficient. destruct (slide_geometry 1 0) as (N & N2 & Q & T).
  set (nz := 1 / sqrt (1 + (1 ^ 2 + 0 ^ 2))) in *. rewrite T, T0, ST.
  rewrite ST, Rmult_1_l in Q.
  destruct (Rlt_dec 0 (1 - 0)); [|lra]. destruct (Rlt_dec 0 (sqrt (1 - nz ^ 2))); [|lra].
  assert (AS : asin (sqrt (1 - nz ^ 2)) = PI / 4).
  { rewrite Q. unfold nz. replace (1 + (1 ^ 2 + 0 ^ 2)) with 2 by ring. rewrite <- sin_PI4. apply asin_sin.
    pose proof PI_RGT_0. lra. }
  rewrite AS. replace (PI / 4 * 4 * 1) with PI by field. rewrite cos_PI. rewrite Q.
  replace (- ((1 - 0) * (1 / 2) * 1 ^ 2 * (1 - 0) / -1) * nz ^ 2 / nz) with (1 / 2 * nz) by (field; lra). lra.
Qed.

(** ** closed boundaries of the bedload term: a boundary is closed exactly when one of its
    values (other than the elevation) is zero, whatever the order of the keys *)
Definition zero_value (kv : string * bval) : Prop :=
  match kv with
  | (k, BNum x) => k <> "elev"%string /\ k <> "uv"%string /\ x = 0
  | (k, BVec x y) => k = "uv"%string /\ x = 0 /\ y = 0
  | _ => False
  end.
Theorem C43_closed_boundaries : forall funcs b, closed_boundary funcs false = Some b ->
  (b = true <-> exists kv, In kv funcs /\ zero_value kv).
Proof.
  intros funcs b H.
  assert (G : forall l acc r, closed_boundary l acc = Some r ->
    (r = true <-> acc = true \/ exists kv, In kv l /\ zero_value kv)).
  { induction l as [|(k, v) l IH]; intros acc r E.
    - cbn in E. injection E as <-. split; [intro; left; assumption|intros [Q|(kv & [] & _)]; exact Q].
    - cbn [closed_boundary] in E.
      assert (STEP : forall acc', closed_boundary l acc' = Some r ->
        (acc' = true <-> acc = true \/ zero_value (k, v)) ->
        (r = true <-> acc = true \/ exists kv, In kv ((k, v) :: l) /\ zero_value kv)).
      { intros acc' E' HA. rewrite (IH acc' r E'), HA. split.
        - intros [[Q|Q]|(kv & Q1 & Q2)]; [left; exact Q|right; exists (k, v); split; [left; reflexivity|exact Q]|right; exists kv; split; [right; exact Q1|exact Q2]].
        - intros [Q|(kv & [Q1|Q1] & Q2)]; [left; left; exact Q|left; right; rewrite Q1; exact Q2|right; exists kv; split; assumption]. }
      destruct (String.eqb_spec k "elev") as [K1|K1]; destruct (String.eqb_spec k "uv") as [K2|K2];
        cbn [orb negb] in E.
      + subst. discriminate.
      + apply (STEP acc E). split; [intro; left; assumption|intros [Q|Q]; [exact Q|]].
        destruct v; cbn in Q; [destruct Q as (Q & _); contradiction|destruct Q as (Q & _); contradiction|contradiction].
      + destruct v as [x|x y|]; try discriminate. apply (STEP _ E).
        destruct (Req_EM_T x 0); [destruct (Req_EM_T y 0)|].
        * split; [intro; right; cbn; repeat split; assumption|reflexivity].
        * split; [intro; left; assumption|intros [Q|(_ & _ & Q)]; [exact Q|contradiction]].
        * split; [intro; left; assumption|intros [Q|(_ & Q & _)]; [exact Q|contradiction]].
      + destruct v as [x|x y|]; try discriminate. apply (STEP _ E).
        destruct (Req_EM_T x 0).
        * split; [intro; right; cbn; repeat split; assumption|reflexivity].
        * split; [intro; left; assumption|intros [Q|(_ & _ & Q)]; [exact Q|contradiction]]. }
  rewrite (G funcs false b H). split; [intros [Q|Q]; [discriminate|exact Q]|intro; right; assumption].
Qed.
(** a field-valued boundary condition other than an elevation makes the bedload term raise *)
Theorem C43_expression_boundary_refuted : closed_boundary [("un"%string, BExpr)] false = None.
Proof. reflexivity. Qed.

(** * Examples *)
Example C43_exchange_example :
  bed_rate (2 / 5) (exner_source false 1 (2 / 5) 3 2 4 1) = - (1) /\
  suspended_rate false 4 (sediment_erosion false 3 4 + sediment_deposition 2 4 1) = 1.
Proof. unfold bed_rate, exner_source, suspended_rate, sediment_erosion, sediment_deposition. split; field. Qed.
Example C43_physical_example : physical (mkBl 3 4 0 0 0 0 0 0 10 0.003 1 2650 0.001 0.05 1.3 1.5 0.75).
Proof. unfold physical, unorm, rho0. cbn [bl_u bl_v bl_qfc bl_mu bl_rhos bl_size bl_thetacr]. repeat split; lra. Qed.
Example C43_closed_example :
  closed_boundary [("elev"%string, BNum 1); ("flux"%string, BNum 0)] false = Some true.
Proof. cbn. destruct (Req_EM_T 0 0); [reflexivity|lra]. Qed.

Print Assumptions C43_exchange_conserves_sediment.
Print Assumptions C43_equilibrium.
Print Assumptions C43_relaxation.
Print Assumptions C43_rouse_range.
Print Assumptions C43_erosion_threshold.
Print Assumptions C43_secondary_current.
Print Assumptions C43_slide_antidiffusive_refuted.
Print Assumptions C43_closed_boundaries.
