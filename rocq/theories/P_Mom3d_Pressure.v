(** C60, continued: bottom drag, the internal pressure gradient, examples. *)
From Coq Require Import Reals List Bool Lra String Ranalysis5.
From Verif Require Import Forms_Model Forms_Proofs Forms3d_Model Forms3d_Spec P_Tracer3d P_Tracer3d_Bounds Mom3d_Model P_Mom3d.
Import ListNotations.
Open Scope R_scope.

(* ------------------------------------------------------------------ *)
(** ** Bottom drag from the roughness length *)

Lemma ln_3_upper : ln 3 < 10/9.
Proof. rewrite <- (ln_exp (10/9)). apply ln_increasing; [lra|]. exact exp_big. Qed.

(** ln a > x from (1 - x/n)^n > 1/a *)
Lemma ln_lower : forall a x n, 0 < a -> (0 < n)%nat -> 0 <= 1 - x / INR n -> / a < (1 - x / INR n) ^ n -> x < ln a.
Proof.
  intros a x n Ha Hn H0 H.
  assert (Hn' : 0 < INR n) by (apply lt_0_INR; exact Hn).
  assert (E : exp (- x) = exp (- x / INR n) ^ n).
  { rewrite <- exp_pow_n. f_equal. field. lra. }
  assert (L : (1 - x / INR n) ^ n <= exp (- x)).
  { rewrite E. apply pow_incr. split; [exact H0|]. pose proof (exp_ineq1_le (- x / INR n)). unfold Rdiv in *. lra. }
  assert (exp x < a).
  { rewrite exp_Ropp in L. assert (P := exp_pos x).
    assert (/ a < / exp x) by lra. rewrite <- (Rinv_inv (exp x)), <- (Rinv_inv a).
    apply Rinv_lt_contravar; [|assumption]. apply Rmult_lt_0_compat; apply Rinv_0_lt_compat; assumption. }
  rewrite <- (ln_exp x). apply ln_increasing; [apply exp_pos|assumption].
Qed.
Lemma pow_frac : forall a b c d n, (0 < b)%Z -> (0 < d)%Z -> (c * b ^ Z.of_nat n < d * a ^ Z.of_nat n)%Z ->
  IZR c / IZR d < (IZR a / IZR b) ^ n.
Proof.
  intros a b c d n Hb Hd H. pose proof (IZR_lt _ _ Hb). pose proof (IZR_lt _ _ Hd).
  unfold Rdiv. rewrite Rpow_mult_distr, pow_inv by lra.
  assert (P : 0 < IZR b ^ n) by (apply pow_lt; assumption).
  apply (Rmult_lt_reg_r (IZR d * IZR b ^ n)); [apply Rmult_lt_0_compat; assumption|].
  replace (IZR c * / IZR d * (IZR d * IZR b ^ n)) with (IZR c * IZR b ^ n) by (field; lra).
  replace (IZR a ^ n * / IZR b ^ n * (IZR d * IZR b ^ n)) with (IZR d * IZR a ^ n) by (field; lra).
  rewrite !pow_IZR, <- !mult_IZR. apply IZR_lt. exact H.
Qed.
Lemma ln_4_lower : 27/20 < ln 4.
Proof.
  apply (ln_lower 4 (27/20) 32); [lra|repeat constructor| |].
  - rewrite INR_IZR_INZ. cbn. lra.
  - replace (1 - 27/20 / INR 32) with (613/640) by (rewrite INR_IZR_INZ; cbn; field).
    replace (/ 4) with (1/4) by lra. apply pow_frac; reflexivity.
Qed.
Lemma ln_55_lower : 8/5 < ln (11/2).
Proof.
  apply (ln_lower (11/2) (8/5) 16); [lra|repeat constructor| |].
  - rewrite INR_IZR_INZ. cbn. lra.
  - replace (1 - 8/5 / INR 16) with (9/10) by (rewrite INR_IZR_INZ; cbn; field).
    replace (/ (11/2)) with (2/11) by field. apply pow_frac; reflexivity.
Qed.
Lemma ln_17_lower : 7/4 < ln 17.
Proof.
  apply (ln_lower 17 (7/4) 4); [lra|repeat constructor| |].
  - rewrite INR_IZR_INZ. cbn. lra.
  - replace (1 - 7/4 / INR 4) with (9/16) by (rewrite INR_IZR_INZ; cbn; field).
    replace (/ 17) with (1/17) by lra. apply pow_frac; reflexivity.
Qed.

Lemma fit_b_scale : forall h z0, 0 < z0 -> fit_b h z0 = z0 * fit_b (h / z0) 1.
Proof.
  intros h z0 Hz. unfold fit_b. replace ((h / z0 + 1) / 1) with ((h + z0) / z0) by (field; lra). field. lra.
Qed.
Lemma ln_mono : forall a b, 0 < a -> a <= b -> ln a <= ln b.
Proof. intros a b Ha [H| ->]; [left; now apply ln_increasing|lra]. Qed.

(** For bottom elements at least three roughness lengths high the drag coefficient is well
    defined and positive. *)
Theorem C60_drag_positive : forall kappa h z0, 0 < kappa -> 0 < z0 -> 3 * z0 <= h ->
  0 < fit_b h z0 /\ 0 < fit_drag kappa h z0.
Proof.
  intros kappa h z0 Hk Hz Hh.
  assert (B : 0 < fit_b h z0).
  { rewrite fit_b_scale by exact Hz. apply Rmult_lt_0_compat; [exact Hz|]. set (x := h / z0).
    assert (Hx : 3 <= x). { unfold x. apply (Rmult_le_reg_r z0); [exact Hz|]. replace (h / z0 * z0) with h by (field; lra). exact Hh. }
    clearbody x. unfold fit_b. replace ((x + 1) / 1) with (1 + x) by field.
    destruct (Rle_dec x (9/2)) as [H1|H1].
    - pose proof (ln_mono 4 (1 + x) ltac:(lra) ltac:(lra)). pose proof ln_4_lower. nra.
    - destruct (Rle_dec x 16) as [H2|H2].
      + pose proof (ln_mono (11/2) (1 + x) ltac:(lra) ltac:(lra)). pose proof ln_55_lower. nra.
      + pose proof (ln_mono 17 (1 + x) ltac:(lra) ltac:(lra)). pose proof ln_17_lower. nra. }
  split; [exact B|]. unfold fit_drag. apply pow_lt. apply Rdiv_lt_0_compat; [|exact B]. nra.
Qed.

(** Below that the fit breaks down: between two and three roughness lengths there is a
    height at which the denominator vanishes and the coefficient is not defined. *)
Theorem C60_drag_always_defined_refuted : forall z0, 0 < z0 ->
  exists h, 2 * z0 <= h <= 3 * z0 /\ fit_b h z0 = 0.
Proof.
  intros z0 Hz.
  destruct (Ranalysis5.IVT_interv (fun h => fit_b h z0) (2 * z0) (3 * z0)) as (h & H1 & H2).
  - intros a Ha. unfold fit_b.
    assert (P : 0 < (a + z0) / z0) by (apply Rdiv_lt_0_compat; lra).
    apply derivable_continuous_pt.
    assert (D : derivable_pt (fun h => ln ((h + z0) / z0)) a).
    { change (fun h => ln ((h + z0) / z0)) with (comp ln (fun h => (h + z0) / z0)). apply derivable_pt_comp.
      - reg.
      - exists (/ ((a + z0) / z0)). apply derivable_pt_lim_ln. exact P. }
    apply (derivable_pt_plus (fun h => - (7/4) * h - 3/2 * z0) (fun h => (h + 5/2 * z0) * ln ((h + z0) / z0))); [reg|].
    apply (derivable_pt_mult (fun h => h + 5/2 * z0) (fun h => ln ((h + z0) / z0))); [reg|exact D].
  - lra.
  - unfold fit_b. replace ((2 * z0 + z0) / z0) with 3 by (field; lra). pose proof ln_3_upper. nra.
  - unfold fit_b. replace ((3 * z0 + z0) / z0) with 4 by (field; lra). pose proof ln_4_lower. nra.
  - exists h. split; [exact H1|exact H2].
Qed.

(* ------------------------------------------------------------------ *)
(** ** Internal pressure gradient *)
Section Ipg.
Context {V F E : Type}.
Variable M : mesh3 V F E.
Variable g_grav : R.
Local Notation KS := (const3 (V:=V) (F:=F) (E:=E)).

(** The horizontal divergence theorem for the product r psi (product rule in the cells). *)
Definition gauss_h (r : sfield3 V F E) (psi : vfield3 V F E) : Prop :=
  let q e := a_e r e * (c0 (g_ne M e) * a_e (w_x psi) e + c1 (g_ne M e) * a_e (w_y psi) e) in
  let j f := c0 (scal3 (jump (fun s => a_f r f s * a_f (w_x psi) f s)) (g_nf M f))
             + c1 (scal3 (jump (fun s => a_f r f s * a_f (w_y psi) f s)) (g_nf M f)) in
  dx3 M (fun p => c0 (a_gv r p) * a_v (w_x psi) p + c1 (a_gv r p) * a_v (w_y psi) p
                  + a_v r p * (c0 (a_gv (w_x psi) p) + c1 (a_gv (w_y psi) p)))
  = dS_v M j + dS_h M j + ds_bottom M q + ds_surf M q + ds_lat M q.
(** the head does not jump between elements *)
Definition continuous3 (r : sfield3 V F E) : Prop := forall f, a_f r f true = a_f r f false.
Definition same_head (ext : nat -> option (E -> R)) (r : sfield3 V F E) : Prop :=
  forall e x, In e (g_lat M) -> ext (g_marker M e) = Some x -> x e = a_e r e.

(** Integration by parts loses nothing: for a head without jumps, external heads equal to
    it and exact integration, both forms give g times the gradient of the head, times the
    factor internal_pg_scalar. *)
Theorem C60_pressure_gradient_consistent : forall scalar by_parts ext r psi,
  (by_parts = true -> continuous3 r /\ gauss_h r psi /\ same_head ext r) ->
  ipg_rhs M g_grav scalar by_parts ext r psi
  = (match scalar with None => 1 | Some s => s end)
    * dx3 M (fun p => g_grav * (c0 (a_gv r p) * a_v (w_x psi) p + c1 (a_gv r p) * a_v (w_y psi) p)).
Proof.
  intros scalar by_parts ext r psi H. unfold ipg_rhs. cbv zeta. destruct by_parts; [|destruct scalar; ring].
  destruct (H eq_refl) as (Hc & Hg & He). unfold gauss_h in Hg. cbv zeta in Hg.
  assert (A : forall l, integral l (g_wf M) (fun f => g_grav * avg (a_f r f) * (c0 (jump3 M (w_x psi) f) + c1 (jump3 M (w_y psi) f)))
    = g_grav * integral l (g_wf M) (fun f => c0 (scal3 (jump (fun s => a_f r f s * a_f (w_x psi) f s)) (g_nf M f))
             + c1 (scal3 (jump (fun s => a_f r f s * a_f (w_y psi) f s)) (g_nf M f)))).
  { intro l. rewrite <- integral_scal. apply integral_ext. intros f _. rewrite !jump3_eq. unfold avg, jump, scal3. cbn [c0 c1].
    rewrite (Hc f). half. field. }
  assert (B : forall l, integral l (g_we M) (fun e => g_grav * a_e r e * (c0 (g_ne M e) * a_e (w_x psi) e + c1 (g_ne M e) * a_e (w_y psi) e))
    = g_grav * integral l (g_we M) (fun e => a_e r e * (c0 (g_ne M e) * a_e (w_x psi) e + c1 (g_ne M e) * a_e (w_y psi) e))).
  { intro l. rewrite <- integral_scal. apply integral_ext. intros; ring. }
  assert (L : ds_lat M (fun e => g_grav * (match ext (g_marker M e) with Some x => 0.5 * (x e + a_e r e) | None => a_e r e end)
       * (c0 (g_ne M e) * a_e (w_x psi) e + c1 (g_ne M e) * a_e (w_y psi) e))
    = g_grav * ds_lat M (fun e => a_e r e * (c0 (g_ne M e) * a_e (w_x psi) e + c1 (g_ne M e) * a_e (w_y psi) e))).
  { unfold ds_lat. rewrite <- integral_scal. apply integral_ext. intros e Hin. specialize (He e). destruct (ext (g_marker M e)) as [x|].
    - rewrite (He x Hin eq_refl). half. field.
    - ring. }
  rewrite L. unfold dS_v, dS_h, ds_bottom, ds_surf, dx3 in *. rewrite !A, !B.
  assert (C : integral (g_cells M) (g_wv M) (fun p => g_grav * a_v r p * (c0 (a_gv (w_x psi) p) + c1 (a_gv (w_y psi) p)))
     = g_grav * integral (g_cells M) (g_wv M) (fun p => c0 (a_gv r p) * a_v (w_x psi) p + c1 (a_gv r p) * a_v (w_y psi) p
                  + a_v r p * (c0 (a_gv (w_x psi) p) + c1 (a_gv (w_y psi) p)))
       - integral (g_cells M) (g_wv M) (fun p => g_grav * (c0 (a_gv r p) * a_v (w_x psi) p + c1 (a_gv r p) * a_v (w_y psi) p))).
  { rewrite <- integral_scal, <- integral_minus. apply integral_ext. intros; ring. }
  rewrite C, Hg. destruct scalar; ring.
Qed.

(** No horizontal density differences, no force: a head that depends on z only (its
    horizontal gradient is zero), e.g. a constant one. *)
Theorem C60_level_head_no_force : forall scalar by_parts ext r psi,
  (forall p, In p (g_cells M) -> c0 (a_gv r p) = 0 /\ c1 (a_gv r p) = 0) ->
  (by_parts = true -> continuous3 r /\ gauss_h r psi /\ same_head ext r) ->
  ipg_rhs M g_grav scalar by_parts ext r psi = 0.
Proof.
  intros scalar by_parts ext r psi Hr H. rewrite (C60_pressure_gradient_consistent scalar by_parts ext r psi H).
  unfold dx3. rewrite integral_zero; [ring|]. intros p Hp. destruct (Hr p Hp) as (-> & ->). ring.
Qed.

(** The total force on a closed basin: internal facets cancel. What remains by parts is the
    pressure on bottom, surface and walls. *)
Theorem C60_pressure_total : forall scalar ext r ex ey,
  let n_dot e := c0 (g_ne M e) * ex + c1 (g_ne M e) * ey in
  ipg_rhs M g_grav scalar true ext r (mk_vf3 (KS ex) (KS ey) (KS 0))
  = (match scalar with None => 1 | Some s => s end) *
    (ds_bottom M (fun e => g_grav * a_e r e * n_dot e) + ds_surf M (fun e => g_grav * a_e r e * n_dot e)
     + ds_lat M (fun e => g_grav * (match ext (g_marker M e) with Some x => 0.5 * (x e + a_e r e) | None => a_e r e end) * n_dot e)).
Proof.
  intros scalar ext r ex ey n_dot. unfold ipg_rhs. cbv zeta. cbn [w_x w_y].
  unfold dx3. rewrite (integral_zero (g_cells M)) by (intros; cbn [const3 a_gv zero3 c0 c1]; ring).
  assert (A : forall l, integral l (g_wf M) (fun f => g_grav * avg (a_f r f) * (c0 (jump3 M (KS ex) f) + c1 (jump3 M (KS ey) f))) = 0).
  { intro l. apply integral_zero. intros f _. rewrite !jump3_eq, !jump_const. unfold scal3. cbn [c0 c1]. ring. }
  unfold dS_v, dS_h. rewrite !A.
  change (fun e => g_grav * a_e r e * (c0 (g_ne M e) * a_e (KS ex) e + c1 (g_ne M e) * a_e (KS ey) e)) with (fun e => g_grav * a_e r e * n_dot e).
  change (fun e => g_grav * (match ext (g_marker M e) with Some x => 0.5 * (x e + a_e r e) | None => a_e r e end) * (c0 (g_ne M e) * a_e (KS ex) e + c1 (g_ne M e) * a_e (KS ey) e))
    with (fun e => g_grav * (match ext (g_marker M e) with Some x => 0.5 * (x e + a_e r e) | None => a_e r e end) * n_dot e).
  destruct scalar; ring.
Qed.
End Ipg.

(* ------------------------------------------------------------------ *)
(** * Examples *)
Section Channel.
(** two cells side by side, walls at both ends, surface above and bottom below each *)
Let M2 : mesh3 bool unit nat :=
  mk_mesh3 [false; true] (fun _ => 10) [] [tt] (fun _ => 3) (fun _ => V3 (-1) 0 0)
    [2%nat] [3%nat] [0%nat; 1%nat] (fun _ => 3)
    (fun n => match n with 0%nat => V3 (-1) 0 0 | 1%nat => V3 1 0 0 | 2%nat => V3 0 0 1 | _ => V3 0 0 (-1) end) (fun n => n).
(** flow along the channel (y direction), faster in the right cell *)
Let sh (l r : R) : sfield3 bool unit nat :=
  mk_s3 (fun p : bool => if p then r else l) (fun _ => zero3) (fun _ s => if s then r else l) (fun _ _ => zero3)
        (fun e => match e with 0%nat => l | _ => r end) (fun _ => zero3).
Let u2 : vfield3 bool unit nat := mk_vf3 (const3 0) (sh 1 2) (const3 0).
Let K2 (b : nat -> option (mbnd nat)) : menv3 bool unit nat :=
  mk_menv3 true true true (Some 1) None (Some (const3 0)) None None None (fun _ _ => 1) (fun _ _ => 1) 1 1
    true None (Some (fun _ => 1/10)) (Some (fun _ => 3)) (2/5) (Some (fun _ => 1/100)) (Some (fun _ => 1/10000)) None 1000 None None b 0.
Let walls (_ : nat) : option (mbnd nat) := None.
Lemma pos2 : positive3 M2.
Proof. repeat split; cbn; intros; lra. Qed.
Ltac run := cbn -[Rplus Rmult Rminus Rdiv Ropp IZR Rabs pow]; unfold dot3, doth; cbn -[Rplus Rmult Rminus Rdiv Ropp IZR Rabs pow].

(** the energy theorem applies to a sheared flow with friction, drag and rotation *)
Example C60_energy_example : exists r, mom_residual M2 (K2 walls) u2 u2 u2 = Some r /\ r <= 0.
Proof.
  assert (E : exists r, mom_residual M2 (K2 walls) u2 u2 u2 = Some r) by (eexists; reflexivity).
  destruct E as (r & E). exists r. split; [exact E|].
  apply (C60_energy_decay M2 (K2 walls) u2 (const3 0) r); try reflexivity; try discriminate; try exact pos2; try exact E.
  - cbn. lra.
  - repeat split.
  - unfold continuity, w_lhs, w_rhs, ds_surf, ds_lat, dS_h, dS_v, dx3, integral, M2, avg. run. half. field.
  - unfold continuity, w_lhs, w_rhs, ds_surf, ds_lat, dS_h, dS_v, dx3, integral, M2, avg. run. half. field.
  - intros e _. reflexivity.
  - intros e [<-|[]]. unfold surface_flux, doth. cbn. ring.
  - intros d H p. assert (d = fun _ => 1/100) as -> by (cbn in H; congruence). lra.
  - cbn. lra.
  - cbn. lra.
Qed.
(** the friction is real: with a height of 30 roughness lengths the drag is positive *)
Example C60_drag_example : 0 < fit_drag (2/5) 3 (1/10).
Proof. apply C60_drag_positive; lra. Qed.
Example C60_rest_example : mom_residual M2 (K2 walls) u2 (mk_vf3 (const3 0) (const3 0) (const3 0)) (mk_vf3 (const3 0) (const3 0) (const3 0)) = Some 0.
Proof. apply C60_rest_kept; try reflexivity; try (left; reflexivity); try discriminate. Qed.

(** uniform flow through the channel: velocity prescribed on the left, free on the right *)
Let through (n : nat) : option (mbnd nat) :=
  match n with 0%nat => Some (MUv (fun _ => V3 2 0 0)) | 1%nat => Some MSymm | _ => None end.
Example C60_uniform_example : forall l r l' r',
  let psi := mk_vf3 (sh l r) (sh l' r') (const3 0) in
  let u := mk_vf3 (const3 2) (const3 0) (const3 0) in
  m_hadv M2 (K2 through) psi u u + m_vadv M2 (K2 through) psi u = 0.
Proof.
  intros l r l' r' psi u.
  apply (C60_uniform_flow_kept M2 (K2 through) (fun n => Nat.ltb n 2) 2 0 psi u (const3 0)); try reflexivity.
  - unfold continuity, w_lhs, w_rhs, ds_surf, ds_lat, dS_h, dS_v, dx3, integral, M2, avg. run. half. field.
  - unfold continuity, w_lhs, w_rhs, ds_surf, ds_lat, dS_h, dS_v, dx3, integral, M2, avg. run. half. field.
  - intros e [<-|[<-|[]]]; cbn; split; reflexivity.
Qed.

(** a head depending on z only, linear test functions: the divergence theorem holds *)
Example C60_pressure_example : forall l r,
  ipg_rhs M2 9.81 (Some (1/2)) true (fun _ => None) (const3 4) (mk_vf3 (sh l r) (sh l r) (const3 0)) = 0.
Proof.
  intros l r. apply C60_level_head_no_force; [intros; split; reflexivity|]. intros _. split; [intro; reflexivity|]. split.
  - unfold gauss_h, dx3, dS_v, dS_h, ds_bottom, ds_surf, ds_lat, integral, M2, jump. run. half. field.
  - intros e x _ H. discriminate H.
Qed.
End Channel.

Print Assumptions C60_advected_like_tracers.
Print Assumptions C60_viscosity_like_diffusion.
Print Assumptions C60_momentum_budget.
Print Assumptions C60_energy_decay.
Print Assumptions C60_rest_kept.
Print Assumptions C60_uniform_flow_kept.
Print Assumptions C60_boundary_keys.
Print Assumptions C60_drag_positive.
Print Assumptions C60_drag_always_defined_refuted.
Print Assumptions C60_pressure_gradient_consistent.
