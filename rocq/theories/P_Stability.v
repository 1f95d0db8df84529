(** C39: the stability functions are self-consistent. *)
From Coq Require Import Reals Lra Lia Psatz.
From Verif Require Import Stability_Model.
Open Scope R_scope.

(** * Specification *)
(** steady state: production equals dissipation, S_m aM - S_h aM Ri = 1
    (Umlauf and Burchard 2005, eq. A.15) *)
Definition equilibrium (c : coeffs) (ri aM : R) : Prop :=
  let s := eval_funcs c (ri * aM) aM in fst s * aM - snd s * aM * ri = 1.
(** two coefficient sets describe the same stability functions *)
Definition same_functions (c c' : coeffs) : Prop :=
  forall aN aM, eval_den c aN aM <> 0 -> eval_funcs c aN aM = eval_funcs c' aN aM.

(** * Steady state *)
Lemma quad_root : forall a b c, a <> 0 -> b ^ 2 - 4 * a * c >= 0 ->
  let x := (- b + sqrt (b ^ 2 - 4 * a * c)) / 2 / a in a * x ^ 2 + b * x + c = 0.
Proof.
  intros a b c Ha HD x.
  assert (Hs : sqrt (b ^ 2 - 4 * a * c) * sqrt (b ^ 2 - 4 * a * c) = b ^ 2 - 4 * a * c)
    by (apply sqrt_sqrt; lra).
  set (s := sqrt (b ^ 2 - 4 * a * c)) in *.
  assert (E : a * x ^ 2 + b * x + c = (s * s - (b ^ 2 - 4 * a * c)) / (4 * a))
    by (unfold x; field; exact Ha).
  rewrite E, Hs. unfold Rdiv. ring.
Qed.

Theorem C39_steady_state : forall c ri,
  let x := compute_alpha_shear_steady c ri in
  steady_a c ri <> 0 -> steady_b c ri ^ 2 - 4 * steady_a c ri * steady_c c >= 0 ->
  eval_den c (ri * x) x <> 0 -> equilibrium c ri x.
Proof.
  intros c ri x Ha HD Hden.
  pose proof (quad_root _ _ _ Ha HD) as HR. cbv zeta in HR. fold (compute_alpha_shear_steady c ri) in HR.
  change (compute_alpha_shear_steady c ri) with x in HR.
  unfold equilibrium, eval_funcs; cbn [fst snd].
  apply (Rmult_eq_reg_r (eval_den c (ri * x) x)); [|exact Hden].
  transitivity ((n0 c + n1 c * (ri * x) + n2 c * x) * x - (nb0 c + nb1 c * (ri * x) + nb2 c * x) * x * ri);
    [field; exact Hden|].
  unfold steady_a, steady_b, steady_c in HR. unfold eval_den. lra.
Qed.

(** cmu0 comes from the steady state at Ri = 0 *)
Theorem C39_cmu0_alpha_is_neutral_steady_state : forall c, d5 c - n2 c <> 0 ->
  cmu0_alpha_shear c = compute_alpha_shear_steady c 0.
Proof.
  intros c H. unfold cmu0_alpha_shear, compute_alpha_shear_steady.
  assert (Ea : steady_a c 0 = - (d5 c - n2 c)) by (unfold steady_a; ring).
  assert (Eb : steady_b c 0 = - (d2 c - n0 c)) by (unfold steady_b; ring).
  rewrite Ea, Eb. unfold steady_c.
  replace ((- (d2 c - n0 c)) ^ 2 - 4 * - (d5 c - n2 c) * - d0 c)
    with ((d2 c - n0 c) ^ 2 - 4 * (d5 c - n2 c) * d0 c) by ring.
  cbv zeta. field. exact H.
Qed.

Theorem C39_cmu0 : forall c, let x := cmu0_alpha_shear c in
  d5 c - n2 c <> 0 -> (d2 c - n0 c) ^ 2 - 4 * (d5 c - n2 c) * d0 c >= 0 ->
  eval_den c 0 x <> 0 -> x > 0 ->
  fst (eval_funcs c 0 x) * x = 1 /\ compute_cmu0 c ^ 4 = fst (eval_funcs c 0 x)
  /\ compute_cmu0 c ^ 4 * x = 1 /\ compute_cmu0 c > 0.
Proof.
  intros c x Ha HD Hden Hx.
  assert (E : equilibrium c 0 x).
  { unfold x in *. rewrite C39_cmu0_alpha_is_neutral_steady_state in * by exact Ha.
    apply C39_steady_state.
    - unfold steady_a. intro F. apply Ha. lra.
    - unfold steady_a, steady_b, steady_c.
      match goal with |- ?e >= 0 =>
        replace e with ((d2 c - n0 c) ^ 2 - 4 * (d5 c - n2 c) * d0 c) by ring end. exact HD.
    - rewrite Rmult_0_l. exact Hden. }
  unfold equilibrium in E. cbv zeta in E. rewrite Rmult_0_l in E.
  assert (E1 : fst (eval_funcs c 0 x) * x = 1) by lra.
  assert (Hp : fst (eval_funcs c 0 x) > 0) by nra.
  assert (E2 : compute_cmu0 c ^ 4 = fst (eval_funcs c 0 x)).
  { unfold compute_cmu0. fold x. set (s := fst (eval_funcs c 0 x)) in *.
    replace (sqrt (sqrt s) ^ 4) with ((sqrt (sqrt s) * sqrt (sqrt s)) * (sqrt (sqrt s) * sqrt (sqrt s))) by ring.
    rewrite !sqrt_sqrt; try reflexivity; try lra; apply sqrt_pos. }
  split; [exact E1|]. split; [exact E2|]. split.
  - rewrite E2. exact E1.
  - unfold compute_cmu0. fold x. apply sqrt_lt_R0, sqrt_lt_R0. exact Hp.
Qed.

(** the Kantha-Clayson parameters make the denominator of compute_cmu0 vanish *)
Theorem C39_cmu0_kantha_clayson_refuted :
  let c := gotm_coeffs gotm_kantha_clayson in d5 c - n2 c = 0 /\ d5 c = 0 /\ n2 c = 0.
Proof. cbv zeta. unfold gotm_kantha_clayson, gotm_params, gotm_coeffs; cbn. lra. Qed.

(** * Model constants *)
Theorem C39_kappa_sigma_inverse : forall v cmu0 n c1 c2,
  v >= 0 -> cmu0 > 0 -> n <> 0 -> c2 > c1 ->
  compute_sigma_psi (compute_kappa v cmu0 n c1 c2) cmu0 n c1 c2 = v
  /\ compute_kappa (compute_sigma_psi v cmu0 n c1 c2) cmu0 n c1 c2 = v.
Proof.
  intros v cmu0 n c1 c2 Hv Hc Hn H12.
  assert (Ha : Rabs n > 0) by (apply Rabs_pos_lt; exact Hn).
  assert (Hsq : Rabs n * Rabs n = n * n) by (rewrite <- Rabs_mult; apply Rabs_right; nra).
  split.
  - unfold compute_sigma_psi, compute_kappa.
    set (s := sqrt (v * (c2 - c1))).
    assert (Es : s * s = v * (c2 - c1)) by (apply sqrt_sqrt; nra).
    replace ((n * (cmu0 / Rabs n * s)) ^ 2)
      with ((n * n) * (cmu0 * cmu0) * (s * s) / (Rabs n * Rabs n)) by (field; lra).
    rewrite Hsq, Es. field. repeat split; lra.
  - unfold compute_kappa, compute_sigma_psi.
    replace ((n * v) ^ 2 / (cmu0 ^ 2 * (c2 - c1)) * (c2 - c1))
      with ((Rabs n * v / cmu0) * (Rabs n * v / cmu0)).
    + rewrite sqrt_square.
      * field. lra.
      * apply Rmult_le_pos; [nra|]. left. apply Rinv_0_lt_compat; lra.
    + replace (Rabs n * v / cmu0 * (Rabs n * v / cmu0)) with ((Rabs n * Rabs n) * v * v / (cmu0 * cmu0)) by (field; lra).
      rewrite Hsq. field. lra.
Qed.

(** c3_minus solves Ri = S_m/S_h (c2 - c1)/(c2 - c3) ... *)
Theorem C39_c3_minus : forall c aM c1 c2 ri,
  let s := eval_funcs c (ri * aM) aM in
  let c3 := c3_minus_of c aM c1 c2 ri in
  fst s <> 0 -> snd s <> 0 -> c1 <> c2 -> ri <> 0 ->
  ri = fst s / snd s * ((c2 - c1) / (c2 - c3)).
Proof.
  intros c aM c1 c2 ri s c3 H1 H2 H3 H4. unfold c3, c3_minus_of. fold s. cbv zeta.
  field. repeat split; try assumption. intro F.
  assert (E : (c2 - c1) * fst s = 0).
  { replace (c2 - (c2 - (c2 - c1) * fst s / snd s / ri)) with ((c2 - c1) * fst s / (snd s * ri)) in F
      by (field; split; assumption).
    clear - F. lra. }
  apply Rmult_integral in E. destruct E as [E|E]; [lra|contradiction].
Qed.

(** ... for any value the numerical solution returns, equilibrium or not: the
    assertion of the code on ri_st cannot detect a failed solution *)
Theorem C39_c3_minus_check_is_vacuous : forall c aM c1 c2 ri,
  let s := eval_funcs c (ri * aM) aM in
  fst s <> 0 -> snd s <> 0 -> c1 <> c2 -> ri <> 0 -> c3_minus_err c aM c1 c2 ri = 0.
Proof.
  intros c aM c1 c2 ri s H1 H2 H3 H4.
  pose proof (C39_c3_minus c aM c1 c2 ri H1 H2 H3 H4) as E. cbv zeta in E.
  unfold c3_minus_err. cbv zeta. unfold s in *.
  set (w := eval_funcs c (ri * aM) aM) in *.
  set (c3 := c3_minus_of c aM c1 c2 ri) in *.
  replace (fst w / snd w * (c2 - c1) / (c2 - c3)) with (fst w / snd w * ((c2 - c1) / (c2 - c3)))
    by (unfold Rdiv; ring).
  lra.
Qed.

Theorem C39_galperin_limit : forall c cmu0 ri,
  let aN := ri * compute_alpha_shear_steady c ri in
  cmu0 > 0 -> aN >= 0 ->
  compute_length_clim c cmu0 ri ^ 2 = cmu0 ^ 6 * aN / 2 /\ compute_length_clim c cmu0 ri >= 0.
Proof.
  intros c cmu0 ri aN Hc HN. unfold compute_length_clim. fold aN.
  assert (E : sqrt (aN / 2) * sqrt (aN / 2) = aN / 2) by (apply sqrt_sqrt; lra).
  pose proof (sqrt_pos (aN / 2)). set (q := sqrt (aN / 2)) in *. split.
  - replace ((cmu0 ^ 3 * q) ^ 2) with (cmu0 ^ 6 * (q * q)) by ring. rewrite E. field.
  - apply Rle_ge, Rmult_le_pos; [apply pow_le; lra|exact H].
Qed.

(** * Limits of the normalized frequencies *)
(** the minimum of the buoyancy parameter: without shear, the (negative) buoyancy
    term balances dissipation there *)
Theorem C39_buoy_min_balance : forall c, let m := get_alpha_buoy_min c in
  d4 c + nb1 c <> 0 -> (d1 c + nb0 c) ^ 2 - 4 * d0 c * (d4 c + nb1 c) >= 0 ->
  eval_den c m 0 <> 0 -> - (snd (eval_funcs c m 0) * m) = 1.
Proof.
  intros c m HA HD Hden.
  assert (HR : (d4 c + nb1 c) * m ^ 2 + (d1 c + nb0 c) * m + d0 c = 0).
  { unfold m, get_alpha_buoy_min.
    pose proof (quad_root (d4 c + nb1 c) (d1 c + nb0 c) (d0 c) HA) as Q. cbv zeta in Q.
    assert (ED : (d1 c + nb0 c) ^ 2 - 4 * (d4 c + nb1 c) * d0 c
                 = (d1 c + nb0 c) ^ 2 - 4 * d0 c * (d4 c + nb1 c)) by ring.
    rewrite ED in Q. specialize (Q HD).
    set (s := sqrt ((d1 c + nb0 c) ^ 2 - 4 * d0 c * (d4 c + nb1 c))) in *.
    replace (0.5 * (s - (d1 c + nb0 c)) / (d4 c + nb1 c))
      with ((- (d1 c + nb0 c) + s) / 2 / (d4 c + nb1 c))
      by (replace 0.5 with (/ 2) by lra; field; exact HA).
    exact Q. }
  unfold eval_funcs; cbn [snd].
  apply (Rmult_eq_reg_r (eval_den c m 0)); [|exact Hden].
  transitivity (- ((nb0 c + nb1 c * m + nb2 c * 0) * m)); [field; exact Hden|].
  unfold eval_den. lra.
Qed.

(** the smooth limiter: stays above the minimum, below the critical value, only
    raises values, is increasing, and leaves values above the critical one alone *)
Lemma smooth_form : forall x m cr, x < cr -> m < cr ->
  let f := x - (x - cr) ^ 2 / (x + m - 2 * cr) in
  f - m = (m - cr) ^ 2 / (2 * cr - x - m) /\ cr - f = (cr - x) * (cr - m) / (2 * cr - x - m)
  /\ f - x = (x - cr) ^ 2 / (2 * cr - x - m).
Proof. intros x m cr H1 H2 f. unfold f. repeat split; field; lra. Qed.

Theorem C39_smooth_limit : forall c l aN,
  let m := get_alpha_buoy_min c in let cr := alpha_buoy_crit l in
  lim_alpha_buoy l = true -> smooth_alpha_buoy_lim l = true -> m < cr ->
  m < limit_buoy c l aN /\ aN <= limit_buoy c l aN
  /\ (cr <= aN -> limit_buoy c l aN = aN)
  /\ (aN < cr -> limit_buoy c l aN < cr).
Proof.
  intros c l aN m cr H1 H2 Hm. unfold limit_buoy. rewrite H1, H2. fold cr.
  destruct (Rlt_dec aN cr) as [H|H].
  - unfold get_alpha_buoy_smooth_min. fold m cr.
    destruct (smooth_form aN m cr H Hm) as (E1 & E2 & E3).
    set (f := aN - (aN - cr) ^ 2 / (aN + m - 2 * cr)) in *.
    assert (P1 : (m - cr) ^ 2 / (2 * cr - aN - m) > 0) by (apply Rdiv_lt_0_compat; [|lra]; assert (m - cr < 0) by lra; nra).
    assert (P2 : (cr - aN) * (cr - m) / (2 * cr - aN - m) > 0) by (apply Rdiv_lt_0_compat; nra).
    assert (P3 : (aN - cr) ^ 2 / (2 * cr - aN - m) > 0) by (apply Rdiv_lt_0_compat; [|lra]; assert (aN - cr < 0) by lra; nra).
    repeat split; intros; lra.
  - repeat split; intros; try lra.
Qed.

Theorem C39_smooth_limit_increasing : forall c l x y,
  let m := get_alpha_buoy_min c in let cr := alpha_buoy_crit l in
  lim_alpha_buoy l = true -> smooth_alpha_buoy_lim l = true -> m < cr ->
  x < y -> limit_buoy c l x < limit_buoy c l y.
Proof.
  intros c l x y m cr H1 H2 Hm Hxy.
  destruct (C39_smooth_limit c l x H1 H2 Hm) as (_ & _ & Bx & Cx).
  destruct (C39_smooth_limit c l y H1 H2 Hm) as (_ & _ & By & Cy). fold cr in Bx, Cx, By, Cy.
  destruct (Rlt_dec y cr) as [Hy|Hy].
  - unfold limit_buoy. rewrite H1, H2. fold cr.
    destruct (Rlt_dec x cr) as [Hx|Hx]; [|lra].
    destruct (Rlt_dec y cr) as [_|F]; [|lra].
    unfold get_alpha_buoy_smooth_min. fold m cr.
    destruct (smooth_form x m cr Hx Hm) as (E1 & _ & _).
    destruct (smooth_form y m cr Hy Hm) as (F1 & _ & _).
    assert ((m - cr) ^ 2 / (2 * cr - x - m) < (m - cr) ^ 2 / (2 * cr - y - m)).
    { unfold Rdiv. apply Rmult_lt_compat_l.
      - assert (m - cr < 0) by lra. nra.
      - apply Rinv_lt_contravar; [|lra]. apply Rmult_lt_0_compat; lra. }
    lra.
  - rewrite (By ltac:(lra)). destruct (Rlt_dec x cr) as [Hx|Hx].
    + specialize (Cx Hx). lra.
    + rewrite (Bx ltac:(lra)). lra.
Qed.

(** with a critical value below the minimum the smooth limiter leaves the admissible
    range (it even lowers the value) *)
Theorem C39_smooth_limit_bad_crit_refuted : exists c l aN,
  lim_alpha_buoy l = true /\ smooth_alpha_buoy_lim l = true
  /\ limit_buoy c l aN < get_alpha_buoy_min c /\ limit_buoy c l aN < aN.
Proof.
  (* minimum -1, critical value -2, aN = -2.5 *)
  exists (mkC 2 2 0 0 0 0 0 0 0 1 1 0), (mkL true true true (-2)), (- (5 / 2)).
  assert (M : get_alpha_buoy_min (mkC 2 2 0 0 0 0 0 0 0 1 1 0) = -1).
  { unfold get_alpha_buoy_min; cbn.
    replace ((2 + 1) * ((2 + 1) * 1) - 4 * 2 * (0 + 1)) with (1 * 1) by ring.
    rewrite sqrt_square by lra. lra. }
  unfold limit_buoy, get_alpha_buoy_smooth_min. rewrite M.
  cbn [lim_alpha_buoy smooth_alpha_buoy_lim alpha_buoy_crit].
  destruct (Rlt_dec (- (5 / 2)) (-2)) as [_|F]; [|lra].
  split; [reflexivity|]. split; [reflexivity|].
  replace (- (5 / 2) - (- (5 / 2) - -2) ^ 2 / (- (5 / 2) + -1 - 2 * -2)) with (-3) by field.
  lra.
Qed.

Theorem C39_clip_limit : forall c l aN,
  lim_alpha_buoy l = true -> smooth_alpha_buoy_lim l = false ->
  get_alpha_buoy_min c <= limit_buoy c l aN /\ aN <= limit_buoy c l aN
  /\ (get_alpha_buoy_min c <= aN -> limit_buoy c l aN = aN)
  /\ (aN < get_alpha_buoy_min c -> limit_buoy c l aN = get_alpha_buoy_min c).
Proof.
  intros c l aN H1 H2. unfold limit_buoy. rewrite H1, H2.
  split; [apply Rmax_r|]. split; [apply Rmax_l|].
  split; intro; [apply Rmax_left|apply Rmax_right]; lra.
Qed.

(** the shear limit in closed form, and what limiting does *)
Theorem C39_shear_max : forall c aN,
  n0 c + n1 c * aN <> 0 -> d2 c + d3 c * aN <> 0 ->
  get_alpha_shear_max c aN = (d0 c + d1 c * aN + d4 c * aN ^ 2) / (d2 c + d3 c * aN).
Proof.
  intros c aN H1 H2. unfold get_alpha_shear_max.
  replace (d0 c * n0 c + (d0 c * n1 c + d1 c * n0 c) * aN
   + (d1 c * n1 c + d4 c * n0 c) * aN ^ 2 + d4 c * n1 c * aN ^ 3)
    with ((d0 c + d1 c * aN + d4 c * aN ^ 2) * (n0 c + n1 c * aN)) by ring.
  replace (d2 c * n0 c + (d2 c * n1 c + d3 c * n0 c) * aN + d3 c * n1 c * aN ^ 2)
    with ((d2 c + d3 c * aN) * (n0 c + n1 c * aN)) by ring.
  field. split; assumption.
Qed.

Theorem C39_shear_limit : forall c l aN aM,
  limit_shear c l aN aM <= aM
  /\ (lim_alpha_shear l = true -> limit_shear c l aN aM <= get_alpha_shear_max c aN)
  /\ (aM <= get_alpha_shear_max c aN -> limit_shear c l aN aM = aM).
Proof.
  intros c l aN aM. unfold limit_shear. destruct (lim_alpha_shear l).
  - split; [apply Rmin_l|]. split; [intros; apply Rmin_r|]. intros; apply Rmin_left; lra.
  - repeat split; intros; solve [lra|discriminate].
Qed.

(** * Positivity of the stability functions of the shipped models *)
Lemma buoy_min_lower : forall c B, 
  d4 c + nb1 c > 0 -> (d4 c + nb1 c) * B ^ 2 - (d1 c + nb0 c) * B + d0 c <= 0 ->
  - B <= get_alpha_buoy_min c.
Proof.
  intros c B HA HB. unfold get_alpha_buoy_min.
  set (A := d4 c + nb1 c) in *. set (b := d1 c + nb0 c) in *.
  assert (HS : b - 2 * A * B <= sqrt (b ^ 2 - 4 * d0 c * A)).
  { destruct (Rle_dec (b - 2 * A * B) 0) as [Hn|Hp].
    - pose proof (sqrt_pos (b ^ 2 - 4 * d0 c * A)). lra.
    - rewrite <- (sqrt_square (b - 2 * A * B)) by lra. apply sqrt_le_1_alt. nra. }
  apply (Rmult_le_reg_r A); [exact HA|].
  replace (0.5 * (sqrt (b ^ 2 - 4 * d0 c * A) - b) / A * A)
    with (0.5 * (sqrt (b ^ 2 - 4 * d0 c * A) - b)) by (generalize (0.5 * (sqrt (b ^ 2 - 4 * d0 c * A) - b)); intro; field; lra).
  nra.
Qed.

(** sufficient conditions at one buoyancy value *)
Lemma positive_at : forall c aN aM,
  let P := d0 c + d1 c * aN + d4 c * aN ^ 2 in let Q := d2 c + d3 c * aN in
  P > 0 -> Q > 0 -> n0 c + n1 c * aN > 0 -> nb0 c + nb1 c * aN > 0 -> nb2 c >= 0 ->
  Q * Q + d5 c * P >= 0 -> d5 c <= 0 -> (n0 c + n1 c * aN) * Q + n2 c * P > 0 ->
  0 <= aM -> aM <= get_alpha_shear_max c aN ->
  eval_den c aN aM >= P /\ fst (eval_funcs c aN aM) > 0 /\ snd (eval_funcs c aN aM) > 0.
Proof.
  intros c aN aM P Q HP HQ HN HB HB2 HD HD5 HM H0 Hmax.
  rewrite C39_shear_max in Hmax by (apply Rgt_not_eq; assumption). fold P Q in Hmax.
  assert (HMQ : aM * Q <= P).
  { apply (Rmult_le_compat_r Q) in Hmax; [|lra].
    replace (P / Q * Q) with P in Hmax by (field; lra). exact Hmax. }
  assert (Hden : eval_den c aN aM >= P).
  { assert (E : eval_den c aN aM = P + aM * (Q + d5 c * aM)) by (unfold eval_den, P, Q; ring).
    rewrite E. assert (Q + d5 c * aM >= 0).
    { apply Rle_ge. apply (Rmult_le_reg_r Q); [exact HQ|]. rewrite Rmult_0_l.
      assert (d5 c * (aM * Q) >= d5 c * P) by nra. nra. }
    nra. }
  assert (Hn : n0 c + n1 c * aN + n2 c * aM > 0).
  { destruct (Rle_dec 0 (n2 c)) as [Hp|Hneg]; [nra|].
    apply (Rmult_gt_reg_l Q); [exact HQ|]. rewrite Rmult_0_r.
    assert (n2 c * (aM * Q) >= n2 c * P) by nra. nra. }
  split; [exact Hden|]. unfold eval_funcs; cbn [fst snd].
  split; apply Rdiv_lt_0_compat; try lra. nra.
Qed.

(** the limiter settings of the turbulence model, turbulence.py:420-422 *)
Definition model_limits : limits := mkL true true false (-1.2).

Ltac coeff := unfold canuto_coeffs, cheng_coeffs, convert, canuto_raw, cheng_raw,
  canutoA, canutoB, cheng, alpha_scalar, cu_scalar in *; cbn [d0 d1 d2 d3 d4 d5 n0 n1 n2 nb0 nb1 nb2
  s0 s1 s2 s4 s5 s6 dd0 dd1 dd2 dd3 dd4 dd5 l1 l2 l3 l4 l5 l6 l7 l8] in *.

Lemma positive_eval : forall c B,
  - B <= get_alpha_buoy_min c ->
  (forall aN, - B <= aN ->
     d0 c + d1 c * aN + d4 c * aN ^ 2 > 0 /\ d2 c + d3 c * aN > 0 /\ n0 c + n1 c * aN > 0
     /\ nb0 c + nb1 c * aN > 0
     /\ (d2 c + d3 c * aN) * (d2 c + d3 c * aN) + d5 c * (d0 c + d1 c * aN + d4 c * aN ^ 2) >= 0
     /\ (n0 c + n1 c * aN) * (d2 c + d3 c * aN) + n2 c * (d0 c + d1 c * aN + d4 c * aN ^ 2) > 0) ->
  nb2 c >= 0 -> d5 c <= 0 ->
  forall shear2 buoy2 k eps, shear2 >= 0 -> eps <> 0 ->
  fst (evaluate c model_limits shear2 buoy2 k eps) > 0
  /\ snd (evaluate c model_limits shear2 buoy2 k eps) > 0.
Proof.
  intros c B HB H Hnb2 Hd5 M2 N2 k eps HM He.
  unfold evaluate, limited. cbv zeta. cbn [fst snd compute_normalized_frequencies].
  set (aN := limit_buoy c model_limits (k ^ 2 / eps ^ 2 * N2)).
  assert (HN : - B <= aN).
  { pose proof (C39_clip_limit c model_limits (k ^ 2 / eps ^ 2 * N2) eq_refl eq_refl) as (E & _).
    fold aN in E. lra. }
  destruct (H aN HN) as (H1 & H2 & H3 & H4 & H5 & H6).
  assert (Hraw : 0 <= k ^ 2 / eps ^ 2 * M2).
  { apply Rmult_le_pos; [|lra]. apply Rmult_le_pos; [nra|]. left. apply Rinv_0_lt_compat. nra. }
  destruct (C39_shear_limit c model_limits aN (k ^ 2 / eps ^ 2 * M2)) as (_ & E2 & _).
  specialize (E2 eq_refl).
  assert (E0 : 0 <= limit_shear c model_limits aN (k ^ 2 / eps ^ 2 * M2)).
  { unfold limit_shear. cbn [lim_alpha_shear model_limits].
    apply Rmin_glb; [exact Hraw|]. rewrite C39_shear_max by (apply Rgt_not_eq; assumption).
    apply Rmult_le_pos; [lra|]. left. apply Rinv_0_lt_compat. lra. }
  destruct (positive_at c aN _ H1 H2 H3 H4 Hnb2 H5 Hd5 H6 E0 E2) as (_ & E3 & E4).
  split; assumption.
Qed.

(** * Agreement of the formulations *)
(** the "new" evaluation and the inherited one give the same values *)
Theorem C39_evaluation_paths_agree : forall r aN aM,
  eval_funcs_new r aN aM = eval_funcs (convert r) aN aM.
Proof.
  intros r aN aM. unfold eval_funcs_new, eval_funcs, eval_den, convert, alpha_scalar, cu_scalar; cbn.
  f_equal; f_equal; [ring|f_equal; ring|ring|f_equal; ring].
Qed.

(** rescaled coefficients describe the same functions *)
Lemma scaled_same : forall c c' t, t <> 0 ->
  d0 c = t * d0 c' -> d1 c = t * d1 c' -> d2 c = t * d2 c' -> d3 c = t * d3 c' ->
  d4 c = t * d4 c' -> d5 c = t * d5 c' -> n0 c = t * n0 c' -> n1 c = t * n1 c' ->
  n2 c = t * n2 c' -> nb0 c = t * nb0 c' -> nb1 c = t * nb1 c' -> nb2 c = t * nb2 c' ->
  same_functions c c'.
Proof.
  intros c c' t Ht E0 E1 E2 E3 E4 E5 F0 F1 F2 G0 G1 G2 aN aM Hden.
  assert (Ed : eval_den c aN aM = t * eval_den c' aN aM)
    by (unfold eval_den; rewrite E0, E1, E2, E3, E4, E5; ring).
  assert (Hd' : eval_den c' aN aM <> 0) by (intro F; apply Hden; rewrite Ed, F; ring).
  unfold eval_funcs. rewrite Ed, F0, F1, F2, G0, G1, G2.
  f_equal; field; split; assumption.
Qed.

(** the GOTM form (Umlauf and Burchard 2005) and the original Canuto form of the
    functions are the same under this correspondence of parameters *)
Definition lambdas_of_gotm (p : gotm_ab) : lambdas :=
  mkLam (ga1 p / gnn p) (ga2 p / (2 * gnn p)) (ga3 p / (2 * gnn p)) (ga5 p / gnn p)
        (2 * gnb p) (gab1 p) (gab2 p) (gab5 p / 2).
Theorem C39_gotm_is_canuto : forall p, gnn p <> 0 -> gab3 p = 2 ->
  same_functions (gotm_coeffs p) (canuto_coeffs (lambdas_of_gotm p)).
Proof.
  intros [a1 a2 a3 a5 ab1 ab2 ab3 ab5 nn nb]. cbn [gnn gab3]. intros Hn H3. subst ab3.
  apply (scaled_same _ _ (3 * nn ^ 3)).
  { apply Rmult_integral_contrapositive. split; [lra|]. apply pow_nonzero. exact Hn. }
  all: unfold gotm_coeffs, canuto_coeffs, convert, canuto_raw, lambdas_of_gotm, alpha_scalar, cu_scalar; cbn [d0 d1 d2 d3 d4 d5 n0 n1 n2 nb0 nb1 nb2
  s0 s1 s2 s4 s5 s6 dd0 dd1 dd2 dd3 dd4 dd5 l1 l2 l3 l4 l5 l6 l7 l8 ga1 ga2 ga3 ga5 gab1 gab2 gab3 gab5 gnn gnb].
  all: replace 1.5 with (3 / 2) by lra; replace 0.5 with (1 / 2) by lra;
       replace 0.75 with (3 / 4) by lra; replace 0.25 with (1 / 4) by lra.
  all: field; exact Hn.
Qed.

(** the Cheng class, written for coefficients divided by 3 l5^2, differs from the
    Canuto formulas (of which it is a parameter set) in two of the twelve
    coefficients: s2 has the opposite sign, s6 misses one term *)
Theorem C39_cheng_vs_canuto : forall p, l5 p <> 0 ->
  let ch := cheng_raw p in let ca := canuto_raw p in let t := 3 * l5 p ^ 2 in
  t * s0 ch = s0 ca /\ t * s1 ch = s1 ca /\ t * s2 ch = - s2 ca
  /\ t * s4 ch = s4 ca /\ t * s5 ch = s5 ca
  /\ t * s6 ch = s6 ca - 3 / 4 * l1 p * (l6 p - l7 p)
  /\ t * dd0 ch = dd0 ca /\ t * dd1 ch = dd1 ca /\ t * dd2 ch = dd2 ca
  /\ t * dd3 ch = dd3 ca /\ t * dd4 ch = dd4 ca /\ t * dd5 ch = dd5 ca.
Proof.
  intros [q1 q2 q3 q4 q5 q6 q7 q8] H ch ca t. cbn [l5] in *. unfold ch, ca, t, cheng_raw, canuto_raw.
  cbn [s0 s1 s2 s4 s5 s6 dd0 dd1 dd2 dd3 dd4 dd5 l1 l2 l3 l4 l5 l6 l7 l8].
  replace 1.5 with (3 / 2) by lra; replace 0.5 with (1 / 2) by lra;
       replace 0.75 with (3 / 4) by lra; replace 0.25 with (1 / 4) by lra.
  repeat split; field; exact H.
Qed.

Theorem C39_cheng_agrees_when_symmetric : forall p, l5 p <> 0 -> l6 p = l7 p ->
  same_functions (canuto_coeffs p) (cheng_coeffs p).
Proof.
  intros p H E.
  destruct (C39_cheng_vs_canuto p H) as (E1&E2&E3&E4&E5&E6&E7&E8&E9&E10&E11&E12).
  assert (Hs2 : s2 (canuto_raw p) = 0) by (unfold canuto_raw; cbn; rewrite E; lra).
  apply (scaled_same _ _ (3 * l5 p ^ 2)).
  { apply Rmult_integral_contrapositive. split; [lra|]. apply pow_nonzero. exact H. }
  all: unfold canuto_coeffs, cheng_coeffs, convert, alpha_scalar, cu_scalar;
    cbn [d0 d1 d2 d3 d4 d5 n0 n1 n2 nb0 nb1 nb2].
  all: try lra. rewrite E in E6. lra.
Qed.

Lemma eq_fracs : forall a b c d, b <> 0 -> d <> 0 -> a / b = c / d -> a * d = c * b.
Proof.
  intros a b c d Hb Hd E. apply (f_equal (fun x => x * (b * d))) in E.
  replace (a / b * (b * d)) with (a * d) in E by (field; exact Hb).
  replace (c / d * (b * d)) with (c * b) in E by (field; exact Hd). exact E.
Qed.

Theorem C39_cheng_is_canuto_refuted :
  ~ same_functions (cheng_coeffs cheng) (canuto_coeffs cheng).
Proof.
  intro F. specialize (F 0 1).
  assert (H1 : eval_den (cheng_coeffs cheng) 0 1 > 0) by (unfold eval_den; coeff; lra).
  assert (H2 : eval_den (canuto_coeffs cheng) 0 1 > 0) by (unfold eval_den; coeff; lra).
  specialize (F (Rgt_not_eq _ _ H1)). apply (f_equal fst) in F. unfold eval_funcs in F.
  cbn [fst] in F. apply eq_fracs in F; [|apply Rgt_not_eq; assumption..].
  clear H1 H2. revert F. unfold eval_den. coeff. lra.
Qed.

Print Assumptions C39_steady_state.
Print Assumptions C39_cmu0.
Print Assumptions C39_smooth_limit.
Print Assumptions C39_gotm_is_canuto.
Print Assumptions C39_cheng_is_canuto_refuted.
