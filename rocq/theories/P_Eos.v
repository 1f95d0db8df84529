(** C57 equation of state and C53 wind stress. *)
From Coq Require Import Reals List String Lra Lia Bool.
From Verif Require Import Eos_Model.
Import ListNotations.
Open Scope R_scope.
Open Scope list_scope.

(** ** C57 *)

(** The linear equation of state takes the reference density at the reference
    temperature and salinity, whatever the pressure. *)
Theorem C57_linear_reference : forall e p rho0,
  linear_compute_rho e (le_s_ref e) (le_th_ref e) p rho0 = le_rho_ref e - rho0.
Proof. intros. unfold linear_compute_rho. ring. Qed.

(** ... and it is affine with slopes -alpha in temperature and beta in
    salinity: the change does not depend on where it happens. *)
Theorem C57_linear_slopes : forall e s th p rho0 ds dth dp,
  linear_compute_rho e (s + ds) (th + dth) (p + dp) rho0
  = linear_compute_rho e s th p rho0 + le_beta e * ds - le_alpha e * dth.
Proof. intros. unfold linear_compute_rho. ring. Qed.

(** These two facts pin the equation of state down. *)
Theorem C57_linear_unique : forall e (f : R -> R -> R),
  f (le_s_ref e) (le_th_ref e) = le_rho_ref e ->
  (forall s th ds dth,
      f (s + ds) (th + dth) = f s th + le_beta e * ds - le_alpha e * dth) ->
  forall s th p, linear_compute_rho e s th p 0 = f s th.
Proof.
  intros e f H0 H s th p.
  replace (f s th)
    with (f (le_s_ref e + (s - le_s_ref e)) (le_th_ref e + (th - le_th_ref e)))
    by (f_equal; ring).
  rewrite H, H0. unfold linear_compute_rho. ring.
Qed.

(** Density decreases with temperature and increases with salinity when the
    coefficients are positive. *)
Theorem C57_linear_monotone : forall e s s' th th' p rho0,
  0 <= le_alpha e -> 0 <= le_beta e -> s <= s' -> th' <= th ->
  linear_compute_rho e s th p rho0 <= linear_compute_rho e s' th' p rho0.
Proof.
  intros e s s' th th' p rho0 Ha Hb Hs Ht. unfold linear_compute_rho.
  assert (le_alpha e * (th' - le_th_ref e) <= le_alpha e * (th - le_th_ref e))
    by (apply Rmult_le_compat_l; lra).
  assert (le_beta e * (s - le_s_ref e) <= le_beta e * (s' - le_s_ref e))
    by (apply Rmult_le_compat_l; lra).
  lra.
Qed.

(** The full equation of state treats every negative salinity as zero, and
    agrees with the expression form for the others. *)
Theorem C57_negative_salinity : forall s th p rho0,
  (s <= 0 -> jackett_compute_rho s th p rho0 = jackett_eval 0 th p rho0)
  /\ (0 <= s -> jackett_compute_rho s th p rho0 = jackett_eval s th p rho0).
Proof.
  intros s th p rho0. unfold jackett_compute_rho. split; intro H.
  - rewrite Rmax_right by lra. reflexivity.
  - rewrite Rmax_left by lra. reflexivity.
Qed.

(** Both equations return the anomaly with respect to the given reference
    density. *)
Theorem C57_anomaly : forall e s th p rho0,
  compute_rho e s th p rho0 = compute_rho e s th p 0 - rho0.
Proof.
  intros [|e] s th p rho0; cbn [compute_rho].
  - unfold jackett_compute_rho, jackett_eval. ring.
  - unfold linear_compute_rho. ring.
Qed.

Lemma pow15_nonneg : forall s, 0 <= s -> 0 <= pow15 s.
Proof.
  intros s H. unfold pow15. apply Rmult_le_pos; [exact H|apply sqrt_pos].
Qed.

(** In the oceanic range the denominator of the full equation of state is at
    least one, so the density is well defined. *)
Theorem C57_denominator : forall s th p,
  0 <= s <= 42 -> 0 <= th <= 40 -> 0 <= p <= 10000 ->
  1 <= jackett_pd s th p.
Proof.
  intros s th p [Hs1 Hs2] [Ht1 Ht2] [Hp1 Hp2].
  unfold jackett_pd, jb; cbn [nth].
  pose proof (pow15_nonneg s Hs1) as Hq.
  set (q := pow15 s) in *. clearbody q.
  assert (A1 : 0 <= th * th) by (apply Rmult_le_pos; lra).
  assert (A2 : th * th <= 40 * th) by (apply Rmult_le_compat_r; lra).
  assert (A3 : 0 <= th * th * th) by (apply Rmult_le_pos; lra).
  assert (A3' : th * th * th <= 64000).
  { replace 64000 with (1600 * 40) by lra. apply Rmult_le_compat; lra. }
  assert (A4 : 0 <= th * th * th * th) by (apply Rmult_le_pos; lra).
  assert (B1 : s * th <= 40 * s).
  { replace (40 * s) with (s * 40) by ring. apply Rmult_le_compat_l; lra. }
  assert (B2 : s * th * th * th <= 64000 * s).
  { replace (s * th * th * th) with (s * (th * th * th)) by ring.
    replace (64000 * s) with (s * 64000) by ring.
    apply Rmult_le_compat_l; lra. }
  assert (B3 : 0 <= q * th * th).
  { apply Rmult_le_pos; [apply Rmult_le_pos|]; lra. }
  assert (D1 : p * p <= 10000 * p) by (apply Rmult_le_compat_r; lra).
  assert (D0 : 0 <= p * p) by (apply Rmult_le_pos; lra).
  assert (D2 : p * p * th * th * th <= 640000000 * p).
  { replace (p * p * th * th * th) with (p * p * (th * th * th)) by ring.
    replace (640000000 * p) with (10000 * p * 64000) by ring.
    apply Rmult_le_compat; lra. }
  assert (D3 : p * p * p <= 100000000 * p).
  { replace (100000000 * p) with (10000 * p * 10000) by ring.
    apply Rmult_le_compat; lra. }
  assert (D4 : p * p * p * th <= 4000000000 * p).
  { replace (4000000000 * p) with (100000000 * p * 40) by ring.
    apply Rmult_le_compat; try lra.
    apply Rmult_le_pos; lra. }
  lra.
Qed.

(** The pointwise density solver leaves salinity and temperature untouched and
    gives every node the density of its own salinity and temperature at surface
    pressure. *)
Theorem C57_density_solver : forall e rho0 w w',
  density_solve e rho0 w = Some w' ->
  wt_salt w' = wt_salt w /\ wt_temp w' = wt_temp w
  /\ List.length (wt_rho w') = List.length (wt_rho w)
  /\ forall i, (i < List.length (wt_rho w))%nat ->
       nth i (wt_rho w') 0
       = compute_rho e (at_node (wt_salt w) i) (at_node (wt_temp w) i) 0 rho0.
Proof.
  intros e rho0 w w' H. unfold density_solve in H.
  destruct (fits _ (wt_salt w) && fits _ (wt_temp w))%bool eqn:E; [|discriminate].
  injection H as <-. cbn [wt_salt wt_temp wt_rho].
  split; [reflexivity|]. split; [reflexivity|].
  split; [now rewrite map_length, seq_length|].
  intros i Hi.
  rewrite nth_indep with (d' := (fun i => compute_rho e (at_node (wt_salt w) i)
                             (at_node (wt_temp w) i) 0 rho0) 0%nat)
    by (rewrite map_length, seq_length; exact Hi).
  rewrite (map_nth (fun i => compute_rho e (at_node (wt_salt w) i)
                             (at_node (wt_temp w) i) 0 rho0)).
  rewrite seq_nth by exact Hi. reflexivity.
Qed.

(** It is rejected exactly when a nodal field has another size. *)
Theorem C57_density_solver_spaces : forall e rho0 w,
  density_solve e rho0 w = None <->
  (exists l, wt_salt w = Nodal l /\ List.length l <> List.length (wt_rho w))
  \/ (exists l, wt_temp w = Nodal l /\ List.length l <> List.length (wt_rho w)).
Proof.
  intros e rho0 [s t r]. unfold density_solve; cbn [wt_salt wt_temp wt_rho].
  assert (F : forall x, fits (List.length r) x = false <->
                        exists l, x = Nodal l /\ List.length l <> List.length r).
  { intros [l|x]; cbn [fits].
    - rewrite Nat.eqb_neq. split; [intro H; now exists l|].
      intros [l' [E H]]. now injection E as <-.
    - split; [discriminate|]. intros [l [E _]]. discriminate. }
  rewrite <- (F s), <- (F t).
  destruct (fits _ s), (fits _ t); cbn [andb]; split; intro H;
    try discriminate; auto; destruct H; discriminate.
Qed.

Lemma clip_max : forall x, clip x = Rmax x 0.
Proof.
  intro x. unfold clip. destruct (Rlt_dec x 0).
  - rewrite Rmax_right; lra.
  - rewrite Rmax_left; lra.
Qed.

(** The weak density solver leaves the temperature untouched as well. *)
Theorem C57_weak_solver_temperature : forall project e rho0 w,
  wt_temp (weak_solve project e rho0 w) = wt_temp w.
Proof. reflexivity. Qed.

(** It replaces the negative nodal salinities by zero and keeps the others... *)
Theorem C57_weak_solver_salinity : forall project e rho0 w i,
  at_node (wt_salt (weak_solve project e rho0 w)) i
  = Rmax (at_node (wt_salt w) i) 0.
Proof.
  intros project e rho0 [[l|x] t r] i; cbn [weak_solve wt_salt ensure_positive_salinity at_node].
  - destruct (Nat.lt_ge_cases i (List.length l)) as [H|H].
    + rewrite nth_indep with (d' := clip 0) by (rewrite map_length; exact H).
      rewrite (map_nth clip). apply clip_max.
    + rewrite !nth_overflow by (rewrite ?map_length; exact H).
      rewrite Rmax_left; lra.
  - apply clip_max.
Qed.

(** ... so, evaluated at the nodes, both solvers use the same density. *)
Theorem C57_solvers_agree : forall e s th rho0,
  eos_eval Jackett (clip s) th 0 rho0 = compute_rho Jackett s th 0 rho0
  /\ (0 <= s -> eos_eval e (clip s) th 0 rho0 = compute_rho e s th 0 rho0).
Proof.
  intros e s th rho0. rewrite clip_max. split; [reflexivity|].
  intro H. destruct e as [|l]; [reflexivity|].
  rewrite Rmax_left by lra. reflexivity.
Qed.

(** Finding: the weak solver changes the salinity, which is a prognostic
    variable of the model, even for the linear equation of state. *)
Theorem C57_weak_solver_keeps_salinity_refuted :
  ~ (forall project e rho0 w,
        wt_salt (weak_solve project e rho0 w) = wt_salt w).
Proof.
  intro H.
  specialize (H (fun _ _ _ => []) Jackett 0 (mk_water (Uniform (-1)) (Uniform 0) [])).
  cbn in H. injection H as H. unfold clip in H.
  destruct (Rlt_dec (-1) 0); lra.
Qed.

Example C57_example :
  let e := mk_linear 1000 0.2 0.8 10 35 in
  linear_compute_rho e 36 10 0 1000 = 0.8
  /\ linear_compute_rho e 35 20 0 0 = 998.
Proof. cbn. unfold linear_compute_rho; cbn [le_rho_ref le_alpha le_beta le_th_ref le_s_ref]. split; lra. Qed.

Example C57_fresh_water : forall s, s <= 0 ->
  jackett_compute_rho s 0 0 0 = 9.9984085444849347e2.
Proof.
  intros s H. destruct (C57_negative_salinity s 0 0 0) as [E _].
  rewrite E by exact H. unfold jackett_eval, jackett_pn, jackett_pd, pow15.
  rewrite !Rmult_0_l, !Rplus_0_r, Rminus_0_r.
  unfold ja, jb; cbn [nth]. lra.
Qed.

(** ** C53 *)

Lemma wind_mag_opp : forall u v, wind_mag (- u) (- v) = wind_mag u v.
Proof. intros. unfold wind_mag. f_equal. ring. Qed.

Definition known_method (m : string) : Prop :=
  m = "LargePond1981"%string \/ m = "SmithBanke1975"%string
  \/ m = "LargeYeager2009"%string.

(** A stress is computed exactly for the three documented methods. *)
Theorem C53_methods : forall rho_air method u v,
  wind_stress rho_air method u v <> None <-> known_method method.
Proof.
  intros rho_air method u v. unfold wind_stress, drag_coefficient, known_method.
  destruct (String.eqb_spec method "LargePond1981") as [H|H1].
  { split; [auto|]. intros _ F; inversion F. }
  destruct (String.eqb_spec method "SmithBanke1975") as [H|H2].
  { split; [auto|]. intros _ F; inversion F. }
  destruct (String.eqb_spec method "LargeYeager2009") as [H|H3].
  { split; [auto|]. intros _ F; inversion F. }
  split; [intro F; now elim F|]. intros [E|[E|E]]; contradiction.
Qed.

Lemma pow6_bound : forall m, 0 <= m <= 33 -> m ^ 6 <= m * 39135393.
Proof.
  intros m [H1 H2].
  replace (m ^ 6) with (m * m ^ 5) by ring.
  apply Rmult_le_compat_l; [lra|].
  replace 39135393 with (33 ^ 5) by lra.
  apply pow_incr; lra.
Qed.

Lemma some_inj : forall A (x y : A), Some x = Some y -> x = y.
Proof. intros A x y H. congruence. Qed.

Lemma div1309 : forall m, m / 13.09 = m * (100 / 1309).
Proof.
  intro m. unfold Rdiv at 1. f_equal.
  apply Rmult_eq_reg_l with 13.09; [|lra].
  rewrite Rinv_r by lra. lra.
Qed.

(** The drag coefficient is positive for every wind speed and every method. *)
Theorem C53_drag_positive : forall method m cd,
  0 <= m -> drag_coefficient method m = Some cd -> 0 < cd.
Proof.
  intros method m cd Hm H. unfold drag_coefficient in H.
  destruct (String.eqb method "LargePond1981").
  { injection H as <-. destruct (Rgt_dec m 11); lra. }
  destruct (String.eqb method "SmithBanke1975").
  { injection H as <-. lra. }
  destruct (String.eqb method "LargeYeager2009"); [|discriminate].
  apply some_inj in H. subst cd. destruct (Rgt_dec m 33) as [G|G]; [lra|].
  pose proof (pow6_bound m ltac:(lra)) as B.
  assert (0 < 2.7 / (m + 1e-3)) by (apply Rdiv_lt_0_compat; lra).
  set (x := 2.7 / (m + 1e-3)) in *. clearbody x.
  set (y := m ^ 6) in *. clearbody y.
  rewrite div1309. lra.
Qed.

(** The stress is the wind multiplied by a positive number (so parallel and in
    the same direction), and its magnitude is C_D rho_air |U|^2. *)
Theorem C53_parallel : forall rho_air method u v tx ty,
  0 < rho_air -> wind_stress rho_air method u v = Some (tx, ty) ->
  exists cd, drag_coefficient method (wind_mag u v) = Some cd
    /\ tx = cd * rho_air * wind_mag u v * u
    /\ ty = cd * rho_air * wind_mag u v * v
    /\ sqrt (tx * tx + ty * ty) = cd * rho_air * (u * u + v * v)
    /\ 0 <= tx * u + ty * v
    /\ tx * v = ty * u
    /\ ((u <> 0 \/ v <> 0) -> 0 < tx * u + ty * v).
Proof.
  intros rho_air method u v tx ty Hr H. unfold wind_stress in H.
  destruct (drag_coefficient method (wind_mag u v)) as [cd|] eqn:E; [|discriminate].
  injection H as <- <-.
  assert (Hm : 0 <= wind_mag u v) by apply sqrt_pos.
  pose proof (C53_drag_positive _ _ _ Hm E) as Hc.
  exists cd.
  assert (S0 : 0 <= u * u + v * v).
  { pose proof (Rle_0_sqr u); pose proof (Rle_0_sqr v); unfold Rsqr in *; lra. }
  assert (SQ : wind_mag u v * wind_mag u v = u * u + v * v)
    by (unfold wind_mag; apply sqrt_sqrt; exact S0).
  set (m := wind_mag u v) in *.
  assert (K : 0 <= cd * rho_air * m).
  { apply Rmult_le_pos; [apply Rlt_le, Rmult_lt_0_compat; assumption|exact Hm]. }
  split; [reflexivity|]. split; [reflexivity|]. split; [reflexivity|].
  split.
  { replace (cd * rho_air * m * u * (cd * rho_air * m * u)
             + cd * rho_air * m * v * (cd * rho_air * m * v))
      with ((cd * rho_air * (m * m)) * (cd * rho_air * (u * u + v * v))) by ring.
    rewrite SQ. apply sqrt_square.
    apply Rmult_le_pos; [apply Rlt_le, Rmult_lt_0_compat; assumption|exact S0]. }
  assert (D : cd * rho_air * m * u * u + cd * rho_air * m * v * v
              = cd * rho_air * m * (u * u + v * v)) by ring.
  split.
  { rewrite D. apply Rmult_le_pos; assumption. }
  split; [ring|].
  intro Hn. rewrite D.
  assert (P : 0 < u * u + v * v).
  { destruct Hn as [Hn|Hn].
    - pose proof (Rsqr_pos_lt u Hn). pose proof (Rle_0_sqr v). unfold Rsqr in *. lra.
    - pose proof (Rsqr_pos_lt v Hn). pose proof (Rle_0_sqr u). unfold Rsqr in *. lra. }
  apply Rmult_lt_0_compat; [|exact P].
  apply Rmult_lt_0_compat; [apply Rmult_lt_0_compat; assumption|].
  unfold m, wind_mag. apply sqrt_lt_R0. exact P.
Qed.

(** No wind, no stress. *)
Theorem C53_zero : forall rho_air method,
  known_method method -> wind_stress rho_air method 0 0 = Some (0, 0).
Proof.
  intros rho_air method H.
  destruct (wind_stress rho_air method 0 0) as [[tx ty]|] eqn:E.
  - unfold wind_stress in E.
    destruct (drag_coefficient method (wind_mag 0 0)); [|discriminate].
    injection E as <- <-. rewrite !Rmult_0_r. reflexivity.
  - exfalso. now apply (C53_methods rho_air method 0 0) in H.
Qed.

(** Reversing the wind reverses the stress. *)
Theorem C53_odd : forall rho_air method u v tx ty,
  wind_stress rho_air method u v = Some (tx, ty) ->
  wind_stress rho_air method (- u) (- v) = Some (- tx, - ty).
Proof.
  intros rho_air method u v tx ty H. unfold wind_stress in *.
  rewrite wind_mag_opp.
  destruct (drag_coefficient method (wind_mag u v)); [|discriminate].
  injection H as <- <-. f_equal. f_equal; ring.
Qed.

(** Turning the wind turns the stress: the law has no preferred direction. *)
Theorem C53_rotation : forall rho_air method u v tx ty a,
  wind_stress rho_air method u v = Some (tx, ty) ->
  wind_stress rho_air method (cos a * u - sin a * v) (sin a * u + cos a * v)
  = Some (cos a * tx - sin a * ty, sin a * tx + cos a * ty).
Proof.
  intros rho_air method u v tx ty a H. unfold wind_stress in *.
  assert (M : wind_mag (cos a * u - sin a * v) (sin a * u + cos a * v)
              = wind_mag u v).
  { unfold wind_mag. f_equal.
    pose proof (sin2_cos2 a) as Q. unfold Rsqr in Q.
    replace ((cos a * u - sin a * v) * (cos a * u - sin a * v)
             + (sin a * u + cos a * v) * (sin a * u + cos a * v))
      with ((sin a * sin a + cos a * cos a) * (u * u + v * v)) by ring.
    rewrite Q. ring. }
  rewrite M.
  destruct (drag_coefficient method (wind_mag u v)); [|discriminate].
  injection H as <- <-. f_equal. f_equal; ring.
Qed.

(** A stronger wind never exerts a smaller stress: the magnitude C_D |U|^2 is
    non-decreasing in the wind speed, also across the switches of the piecewise
    formulas. *)
Lemma pow8_diff : forall a b, 0 <= a <= b -> b <= 33 ->
  b ^ 8 - a ^ 8 <= 6 * 39135393 * (b ^ 3 - a ^ 3).
Proof.
  intros a b [Ha Hab] Hb.
  assert (B5 : b ^ 5 <= 39135393).
  { replace 39135393 with (33 ^ 5) by lra. apply pow_incr; lra. }
  assert (B0 : 0 <= b ^ 5) by (apply pow_le; lra).
  assert (C3 : (b - a) * b ^ 2 <= b ^ 3 - a ^ 3).
  { replace (b ^ 3 - a ^ 3) with ((b - a) * (b ^ 2 + (a * b + a * a))) by ring.
    apply Rmult_le_compat_l; [lra|].
    assert (0 <= a * b) by (apply Rmult_le_pos; lra).
    assert (0 <= a * a) by (apply Rmult_le_pos; lra). lra. }
  assert (C0 : 0 <= b ^ 3 - a ^ 3).
  { apply Rle_trans with (2 := C3). apply Rmult_le_pos; [lra|apply pow_le; lra]. }
  assert (P : forall k, a ^ k <= b ^ k) by (intro k; apply pow_incr; lra).
  assert (A : forall k, 0 <= a ^ k) by (intro k; apply pow_le; lra).
  assert (Bk : forall k, 0 <= b ^ k) by (intro k; apply pow_le; lra).
  assert (D : a ^ 3 * (b ^ 5 - a ^ 5) <= 5 * b ^ 5 * ((b - a) * b ^ 2)).
  { replace (b ^ 5 - a ^ 5)
      with ((b - a) * (b ^ 4 + b ^ 3 * a ^ 1 + b ^ 2 * a ^ 2 + b ^ 1 * a ^ 3 + a ^ 4))
      by ring.
    replace (5 * b ^ 5 * ((b - a) * b ^ 2)) with (b ^ 3 * ((b - a) * (5 * b ^ 4))) by ring.
    apply Rmult_le_compat; [apply A| |apply P|].
    - apply Rmult_le_pos; [lra|].
      assert (0 <= b ^ 3 * a ^ 1) by (apply Rmult_le_pos; auto).
      assert (0 <= b ^ 2 * a ^ 2) by (apply Rmult_le_pos; auto).
      assert (0 <= b ^ 1 * a ^ 3) by (apply Rmult_le_pos; auto).
      pose proof (Bk 4%nat). pose proof (A 4%nat). lra.
    - apply Rmult_le_compat_l; [lra|].
      assert (b ^ 3 * a ^ 1 <= b ^ 4).
      { replace (b ^ 4) with (b ^ 3 * b ^ 1) by ring.
        apply Rmult_le_compat_l; auto. }
      assert (b ^ 2 * a ^ 2 <= b ^ 4).
      { replace (b ^ 4) with (b ^ 2 * b ^ 2) by ring.
        apply Rmult_le_compat_l; auto. }
      assert (b ^ 1 * a ^ 3 <= b ^ 4).
      { replace (b ^ 4) with (b ^ 1 * b ^ 3) by ring.
        apply Rmult_le_compat_l; auto. }
      pose proof (P 4%nat). lra. }
  assert (E : 5 * b ^ 5 * ((b - a) * b ^ 2) <= 5 * b ^ 5 * (b ^ 3 - a ^ 3)).
  { apply Rmult_le_compat_l; lra. }
  assert (F : b ^ 8 - a ^ 8 = b ^ 5 * (b ^ 3 - a ^ 3) + a ^ 3 * (b ^ 5 - a ^ 5)) by ring.
  rewrite F.
  assert (G : b ^ 5 * (b ^ 3 - a ^ 3) <= 39135393 * (b ^ 3 - a ^ 3))
    by (apply Rmult_le_compat_r; assumption).
  set (x := b ^ 3 - a ^ 3) in *. set (y := b ^ 5) in *.
  set (z := a ^ 3 * (b ^ 5 - a ^ 5)) in *.
  lra.
Qed.

Definition yeager_low (m : R) : R :=
  1e-3 * (2.7 / (m + 1e-3) + 0.142 + m / 13.09 - 3.14807e-10 * m ^ 6).

Lemma yeager_low_mono : forall a b, 0 <= a <= b -> b <= 33 ->
  yeager_low a * (a * a) <= yeager_low b * (b * b).
Proof.
  intros a b [Ha Hab] Hb.
  pose proof (pow8_diff a b (conj Ha Hab) Hb) as P8.
  assert (Q : a * a <= b * b) by (apply Rmult_le_compat; lra).
  assert (F : forall m, 0 <= m ->
    yeager_low m * (m * m) = 1e-3 * (2.7 * (m * m / (m + 1e-3)) + 0.142 * (m * m)
      + m ^ 3 / 13.09 - 3.14807e-10 * m ^ 8)).
  { intros m Hm. unfold yeager_low.
    replace (2.7 / (m + 1e-3)) with (2.7 * / (m + 1e-3)) by reflexivity.
    replace (m * m / (m + 1e-3)) with (m * m * / (m + 1e-3)) by reflexivity.
    set (i := / (m + 1e-3)). set (e := 1e-3). 
    unfold Rdiv. ring. }
  rewrite (F a Ha), (F b ltac:(lra)).
  assert (D : a * a / (a + 1e-3) <= b * b / (b + 1e-3)).
  { set (e := 1e-3). assert (He : 0 < e) by (unfold e; lra).
    apply Rmult_le_reg_r with ((a + e) * (b + e)).
    { apply Rmult_lt_0_compat; lra. }
    replace (a * a / (a + e) * ((a + e) * (b + e))) with (a * a * (b + e))
      by (field; lra).
    replace (b * b / (b + e) * ((a + e) * (b + e))) with (b * b * (a + e))
      by (field; lra).
    assert (a * a * e <= b * b * e) by (apply Rmult_le_compat_r; lra).
    assert (a * b * a <= a * b * b).
    { apply Rmult_le_compat_l; [apply Rmult_le_pos; lra|lra]. }
    lra. }
  set (d1 := a * a / (a + 1e-3)) in *. clearbody d1.
  set (d2 := b * b / (b + 1e-3)) in *. clearbody d2.
  set (a8 := a ^ 8) in *. clearbody a8. set (b8 := b ^ 8) in *. clearbody b8.
  assert (P3 : a ^ 3 <= b ^ 3) by (apply pow_incr; lra).
  set (a3 := a ^ 3) in *. clearbody a3. set (b3 := b ^ 3) in *. clearbody b3.
  set (a2 := a * a) in *. clearbody a2. set (b2 := b * b) in *. clearbody b2.
  rewrite !div1309. lra.
Qed.

Lemma yeager_33 : yeager_low 33 <= 2.34e-3.
Proof.
  unfold yeager_low.
  assert (2.7 / (33 + 1e-3) <= 2.7 / 33).
  { unfold Rdiv. apply Rmult_le_compat_l; [lra|]. apply Rinv_le_contravar; lra. }
  set (x := 2.7 / (33 + 1e-3)) in *. clearbody x.
  replace (33 ^ 6) with 1291467969 by lra. rewrite div1309. lra.
Qed.

Theorem C53_stress_monotone : forall method a b ca cb,
  0 <= a <= b ->
  drag_coefficient method a = Some ca -> drag_coefficient method b = Some cb ->
  ca * (a * a) <= cb * (b * b).
Proof.
  intros method a b ca cb [Ha Hab] Ea Eb. unfold drag_coefficient in *.
  assert (Q : a * a <= b * b) by (apply Rmult_le_compat; lra).
  assert (Q0 : 0 <= a * a) by (apply Rmult_le_pos; lra).
  destruct (String.eqb method "LargePond1981").
  { injection Ea as <-. injection Eb as <-.
    destruct (Rgt_dec a 11), (Rgt_dec b 11); try lra;
      apply Rmult_le_compat; lra. }
  destruct (String.eqb method "SmithBanke1975").
  { injection Ea as <-. injection Eb as <-. apply Rmult_le_compat; lra. }
  destruct (String.eqb method "LargeYeager2009"); [|discriminate].
  apply some_inj in Ea. subst ca. apply some_inj in Eb. subst cb.
  change (1e-3 * (2.7 / (a + 1e-3) + 0.142 + a / 13.09 - 3.14807e-10 * a ^ 6))
    with (yeager_low a).
  change (1e-3 * (2.7 / (b + 1e-3) + 0.142 + b / 13.09 - 3.14807e-10 * b ^ 6))
    with (yeager_low b).
  destruct (Rgt_dec a 33) as [A|A], (Rgt_dec b 33) as [B|B].
  - apply Rmult_le_compat_l; lra.
  - exfalso. lra.
  - apply Rle_trans with (yeager_low 33 * (33 * 33)).
    + apply yeager_low_mono; lra.
    + pose proof yeager_33.
      assert (33 * 33 <= b * b) by (apply Rmult_le_compat; lra).
      apply Rle_trans with (2.34e-3 * (33 * 33)).
      * apply Rmult_le_compat_r; lra.
      * apply Rmult_le_compat_l; lra.
  - apply yeager_low_mono; lra.
Qed.

Example C53_example :
  wind_stress 1.22 "SmithBanke1975" 3 4
  = Some ((0.63 + 0.066 * 5) / 1000 * 1.22 * 5 * 3,
          (0.63 + 0.066 * 5) / 1000 * 1.22 * 5 * 4).
Proof.
  unfold wind_stress, wind_mag.
  replace (3 * 3 + 4 * 4) with (5 * 5) by lra. rewrite sqrt_square by lra.
  reflexivity.
Qed.

Print Assumptions C57_denominator.
Print Assumptions C53_stress_monotone.
