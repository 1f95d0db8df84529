(** C77: weak gradients, Smagorinsky viscosity, buoyancy frequency, mesh metric. *)
From Coq Require Import Reals List Bool Lra Psatz.
From Verif Require Import Turb_Model Forms_Model Forms_Proofs Forms3d_Model Forms3d_Spec Strain_Model.
Import ListNotations.
Open Scope R_scope.

(* ------------------------------------------------------------------ *)
(** ** Specification *)
Section Spec.
Context {V F E : Type}.
Variable M : mesh3 V F E.
(** The divergence theorem along one axis for the product u phi, with all facets. *)
Definition gauss_axis (a : axis) (u phi : sfield3 V F E) : Prop :=
  let j f := jump (fun s => a_f u f s * a_f phi f s) * comp a (g_nf M f) in
  let q e := a_e u e * a_e phi e * comp a (g_ne M e) in
  dx3 M (fun p => comp a (a_gv u p) * a_v phi p + a_v u p * comp a (a_gv phi p))
  = dS_v M j + dS_h M j + ds_surf M q + ds_bottom M q + ds_lat M q.
(** Layers are level: their facets have no horizontal normal component. *)
Definition level_layers : Prop :=
  (forall f, In f (g_hor M) -> c0 (g_nf M f) = 0 /\ c1 (g_nf M f) = 0) /\
  (forall e, In e (g_surf M) \/ In e (g_bot M) -> c0 (g_ne M e) = 0 /\ c1 (g_ne M e) = 0).
(** Columns are vertical: their facets have no vertical normal component. *)
Definition vertical_columns : Prop :=
  (forall f, In f (g_ver M) -> c2 (g_nf M f) = 0) /\ (forall e, In e (g_lat M) -> c2 (g_ne M e) = 0).
(** The field does not jump at the listed facets. *)
Definition continuous_at (l : list F) (u : sfield3 V F E) : Prop :=
  forall f, In f l -> a_f u f true = a_f u f false.
(** A cell indicator function as a test function of degree 0. *)
Definition piecewise_constant (phi : sfield3 V F E) : Prop :=
  forall p, In p (g_cells M) -> a_gv phi p = zero3.
End Spec.

Lemma jump_n_eq : forall (V F E : Type) (M : mesh3 V F E) a (phi : sfield3 V F E) f,
  jump_n M a phi f = jump (a_f phi f) * comp a (g_nf M f).
Proof. intros. unfold jump_n, nrm, jump, opp3. destruct a; cbn [comp c0 c1 c2]; ring. Qed.

Section Theorems.
Context {V F E : Type}.
Variable M : mesh3 V F E.

Lemma facet_split : forall a (u phi : sfield3 V F E) f,
  jump (fun s => a_f u f s * a_f phi f s) * comp a (g_nf M f)
  = avg (a_f u f) * jump_n M a phi f + jump (a_f u f) * avg (a_f phi f) * comp a (g_nf M f).
Proof. intros a u phi f. rewrite jump_n_eq. unfold jump, avg. lra. Qed.

(** What the weak horizontal gradient computes: the gradient inside the cells, minus the
    jumps between columns, minus everything that crosses sloping layers. *)
Theorem C77_horizontal_gradient : forall a u phi, gauss_axis M a u phi ->
  hgrad_rhs M a u phi
  = dx3 M (fun p => comp a (a_gv u p) * a_v phi p)
    - dS_v M (fun f => jump (a_f u f) * avg (a_f phi f) * comp a (g_nf M f))
    - dS_h M (fun f => jump (fun s => a_f u f s * a_f phi f s) * comp a (g_nf M f))
    - ds_surf M (fun e => a_e u e * a_e phi e * comp a (g_ne M e))
    - ds_bottom M (fun e => a_e u e * a_e phi e * comp a (g_ne M e)).
Proof.
  intros a u phi G. unfold gauss_axis in G. cbv zeta in G. unfold hgrad_rhs.
  assert (A : dS_v M (fun f => jump (fun s => a_f u f s * a_f phi f s) * comp a (g_nf M f))
     = dS_v M (fun f => avg (a_f u f) * jump_n M a phi f)
       + dS_v M (fun f => jump (a_f u f) * avg (a_f phi f) * comp a (g_nf M f))).
  { unfold dS_v. rewrite <- integral_plus. apply integral_ext. intros f _. apply facet_split. }
  assert (B : dx3 M (fun p => comp a (a_gv u p) * a_v phi p + a_v u p * comp a (a_gv phi p))
     = dx3 M (fun p => comp a (a_gv u p) * a_v phi p) + dx3 M (fun p => comp a (a_gv phi p) * a_v u p)).
  { unfold dx3. rewrite <- integral_plus. apply integral_ext. intros; ring. }
  assert (C : ds_lat M (fun e => a_e u e * (a_e phi e * comp a (g_ne M e)))
     = ds_lat M (fun e => a_e u e * a_e phi e * comp a (g_ne M e))).
  { unfold ds_lat. apply integral_ext. intros; ring. }
  rewrite A, B in G. rewrite C. lra.
Qed.
(** On level layers the weak gradient of a continuous velocity is the gradient. *)
Theorem C77_level_layers : forall a u phi, a <> AZ -> gauss_axis M a u phi -> level_layers M ->
  continuous_at (g_ver M) u ->
  hgrad_rhs M a u phi = dx3 M (fun p => comp a (a_gv u p) * a_v phi p).
Proof.
  intros a u phi Ha G (L1 & L2) Hc. rewrite C77_horizontal_gradient by exact G.
  assert (N1 : forall f, In f (g_hor M) -> comp a (g_nf M f) = 0).
  { intros f Hf. destruct (L1 f Hf). destruct a; [assumption|assumption|contradiction]. }
  assert (N2 : forall e, In e (g_surf M) \/ In e (g_bot M) -> comp a (g_ne M e) = 0).
  { intros e He. destruct (L2 e He). destruct a; [assumption|assumption|contradiction]. }
  unfold dS_v, dS_h, ds_surf, ds_bottom.
  rewrite (integral_zero (g_ver M)) by (intros f Hf; unfold jump; rewrite (Hc f Hf); ring).
  rewrite (integral_zero (g_hor M)) by (intros f Hf; rewrite (N1 f Hf); ring).
  rewrite (integral_zero (g_surf M)) by (intros e He; rewrite (N2 e (or_introl He)); ring).
  rewrite (integral_zero (g_bot M)) by (intros e He; rewrite (N2 e (or_intror He)); ring).
  ring.
Qed.
(** Hence the field that solves the equation for the test function "difference" equals
    the gradient at every point. *)
Theorem C77_gradient_exact : forall a u g diff, a <> AZ -> positive3 M -> level_layers M ->
  continuous_at (g_ver M) u -> gauss_axis M a u diff ->
  (forall p, In p (g_cells M) -> a_v diff p = a_v g p - comp a (a_gv u p)) ->
  grad_lhs M g diff = hgrad_rhs M a u diff ->
  forall p, In p (g_cells M) -> a_v g p = comp a (a_gv u p).
Proof.
  intros a u g diff Ha (P & _) L Hc G D H. rewrite (C77_level_layers a u diff Ha G L Hc) in H. unfold grad_lhs, dx3 in H.
  assert (Z : integral (g_cells M) (g_wv M) (fun p => (a_v g p - comp a (a_gv u p)) * (a_v g p - comp a (a_gv u p))) = 0).
  { transitivity (integral (g_cells M) (g_wv M) (fun p => a_v g p * a_v diff p)
       - integral (g_cells M) (g_wv M) (fun p => comp a (a_gv u p) * a_v diff p)); [|lra].
    rewrite <- integral_minus. apply integral_ext. intros p Hp. rewrite (D p Hp). ring. }
  intros p Hp.
  assert (S0 : (a_v g p - comp a (a_gv u p)) * (a_v g p - comp a (a_gv u p)) = 0).
  { refine (integral_zero_all (g_cells M) (g_wv M) (fun p => (a_v g p - comp a (a_gv u p)) * (a_v g p - comp a (a_gv u p))) P _ Z p Hp).
    intros q _. exact (Rle_0_sqr _). }
  destruct (Rmult_integral _ _ S0); lra.
Qed.

(** Vertical gradients: no condition on the layers is needed, columns are vertical. *)
Theorem C77_vertical_gradient : forall q phi, gauss_axis M AZ q phi -> vertical_columns M ->
  vgrad_rhs M q phi
  = dx3 M (fun p => c2 (a_gv q p) * a_v phi p)
    - dS_h M (fun f => jump (a_f q f) * avg (a_f phi f) * c2 (g_nf M f)).
Proof.
  intros q phi G (L1 & L2). unfold gauss_axis in G. cbv zeta in G. unfold vgrad_rhs. cbn [comp] in G.
  assert (A : dS_h M (fun f => jump (fun s => a_f q f s * a_f phi f s) * c2 (g_nf M f))
     = dS_h M (fun f => avg (a_f q f) * jump_n M AZ phi f)
       + dS_h M (fun f => jump (a_f q f) * avg (a_f phi f) * c2 (g_nf M f))).
  { unfold dS_h. rewrite <- integral_plus. apply integral_ext. intros f _. apply (facet_split AZ). }
  assert (B : dx3 M (fun p => c2 (a_gv q p) * a_v phi p + a_v q p * c2 (a_gv phi p))
     = dx3 M (fun p => c2 (a_gv q p) * a_v phi p) + dx3 M (fun p => a_v q p * c2 (a_gv phi p))).
  { unfold dx3. apply integral_plus. }
  assert (C : dS_v M (fun f => jump (fun s => a_f q f s * a_f phi f s) * c2 (g_nf M f)) = 0).
  { unfold dS_v. apply integral_zero. intros f Hf. rewrite (L1 f Hf). ring. }
  assert (D : ds_lat M (fun e => a_e q e * a_e phi e * c2 (g_ne M e)) = 0).
  { unfold ds_lat. apply integral_zero. intros e He. rewrite (L2 e He). ring. }
  rewrite A, B, C, D in G. lra.
Qed.
(** Over the whole domain the gradient adds up to surface minus bottom: nothing is lost at
    the interfaces, whatever the jumps. *)
Theorem C77_vertical_total : forall g q, grad_lhs M g (const3 1) = vgrad_rhs M q (const3 1) ->
  dx3 M (a_v g) = ds_surf M (fun e => a_e q e * c2 (g_ne M e)) + ds_bottom M (fun e => a_e q e * c2 (g_ne M e)).
Proof.
  intros g q H. unfold grad_lhs, vgrad_rhs in H. unfold dx3, dS_h, ds_surf, ds_bottom in *.
  rewrite (integral_ext (g_cells M) (g_wv M) (fun p => a_v g p * a_v (const3 1) p) (a_v g)) in H
    by (intros; cbn [const3 a_v]; ring).
  rewrite (integral_zero (g_cells M) (g_wv M) (fun x => a_v q x * c2 (a_gv (const3 1) x))) in H
    by (intros; cbn [const3 a_gv zero3 c2]; ring).
  rewrite (integral_zero (g_hor M)) in H
    by (intros; rewrite jump_n_eq; unfold jump; cbn [const3 a_f]; ring).
  rewrite H. rewrite Ropp_0, !Rplus_0_l. f_equal; apply integral_ext; intros; cbn [const3 a_e]; ring.
Qed.

(** ** Buoyancy frequency *)
(** Stable stratification: inside the cells and across the interfaces the density does not
    increase upwards. The '+' side of an interface is below when its normal points up. *)
Definition stable (rho : sfield3 V F E) : Prop :=
  (forall p, In p (g_cells M) -> c2 (a_gv rho p) <= 0) /\
  (forall f, In f (g_hor M) -> 0 <= jump (a_f rho f) * c2 (g_nf M f)).
(** One cell: a nonnegative piecewise constant test function, and a solution that is
    constant where it does not vanish. *)
Theorem C77_stable_stratification : forall g_grav rho0 rho n2 phi value,
  0 < g_grav -> 0 < rho0 -> positive3 M -> vertical_columns M -> stable rho ->
  gauss_axis M AZ (buoy_source g_grav rho0 rho) phi ->
  (forall p, In p (g_cells M) -> 0 <= a_v phi p /\ (a_v phi p <> 0 -> a_v n2 p = value)) ->
  (forall f s, In f (g_hor M) -> 0 <= a_f phi f s) -> 0 < dx3 M (a_v phi) ->
  grad_lhs M n2 phi = vgrad_rhs M (buoy_source g_grav rho0 rho) phi -> 0 <= value.
Proof.
  intros gg r0 rho n2 phi value Hg Hr P VC (St1 & St2) G Hphi Hf Hpos H.
  rewrite C77_vertical_gradient in H by assumption. destruct P as (P1 & P2 & _).
  assert (K : 0 < gg / r0) by (apply Rdiv_lt_0_compat; assumption).
  assert (L : grad_lhs M n2 phi = value * dx3 M (a_v phi)).
  { unfold grad_lhs, dx3. rewrite <- integral_scal. apply integral_ext. intros p Hp. destruct (Hphi p Hp) as (_ & Q).
    destruct (Req_dec (a_v phi p) 0) as [Z|Z]; [rewrite Z; ring|]. rewrite (Q Z). ring. }
  assert (A : 0 <= dx3 M (fun p => c2 (a_gv (buoy_source gg r0 rho) p) * a_v phi p)).
  { unfold dx3. apply integral_nonneg; [intros p Hp; apply Rlt_le, P1, Hp|]. intros p Hp.
    unfold buoy_source. cbn [a_gv scal3 c2]. specialize (St1 p Hp). destruct (Hphi p Hp) as (Q & _).
    replace (- gg / r0 * c2 (a_gv rho p)) with (gg / r0 * (- c2 (a_gv rho p))) by (field; lra).
    apply Rmult_le_pos; [apply Rmult_le_pos; lra|exact Q]. }
  assert (B : 0 <= dS_h M (fun f => - (jump (a_f (buoy_source gg r0 rho) f) * avg (a_f phi f) * c2 (g_nf M f)))).
  { unfold dS_h. apply integral_nonneg; [intros f Hf'; apply Rlt_le, P2, Hf'|]. intros f Hf'. specialize (St2 f Hf').
    unfold buoy_source. cbn [a_f]. unfold jump in *. pose proof (Hf f true Hf'). pose proof (Hf f false Hf').
    unfold avg.
    match goal with |- 0 <= ?e => replace e with
      (gg / r0 * ((a_f rho f true - a_f rho f false) * c2 (g_nf M f)) * (0.5 * (a_f phi f true + a_f phi f false))) end.
    - apply Rmult_le_pos; [apply Rmult_le_pos; lra|lra].
    - unfold Rdiv. lra. }
  unfold dS_h in B. rewrite integral_opp in B. unfold dS_h in H.
  assert (Q : 0 <= value * dx3 M (a_v phi)) by (rewrite <- L, H; lra).
  apply (Rmult_le_reg_r (dx3 M (a_v phi))); [exact Hpos|]. lra.
Qed.
(** A uniform gradient of density, continuous between layers, gives the same value
    N2 = -g/rho0 drho/dz in every cell. *)
Theorem C77_linear_stratification : forall g_grav rho0 rho n2 phi value slope, rho0 <> 0 ->
  vertical_columns M -> gauss_axis M AZ (buoy_source g_grav rho0 rho) phi ->
  continuous_at (g_hor M) rho -> (forall p, In p (g_cells M) -> c2 (a_gv rho p) = slope) ->
  (forall p, In p (g_cells M) -> a_v phi p <> 0 -> a_v n2 p = value) -> dx3 M (a_v phi) <> 0 ->
  grad_lhs M n2 phi = vgrad_rhs M (buoy_source g_grav rho0 rho) phi ->
  value = - g_grav / rho0 * slope.
Proof.
  intros gg r0 rho n2 phi value slope Hr VC G Hc Hs Hn Hpos H.
  rewrite C77_vertical_gradient in H by assumption.
  unfold dS_h in H. rewrite (integral_zero (g_hor M)) in H
    by (intros f Hf; unfold jump, buoy_source; cbn [a_f]; rewrite (Hc f Hf); ring).
  assert (L : grad_lhs M n2 phi = value * dx3 M (a_v phi)).
  { unfold grad_lhs, dx3. rewrite <- integral_scal. apply integral_ext. intros p Hp.
    destruct (Req_dec (a_v phi p) 0) as [Z|Z]; [rewrite Z; ring|]. rewrite (Hn p Hp Z). ring. }
  assert (R : dx3 M (fun p => c2 (a_gv (buoy_source gg r0 rho) p) * a_v phi p) = - gg / r0 * slope * dx3 M (a_v phi)).
  { unfold dx3. rewrite <- integral_scal. apply integral_ext. intros p Hp. unfold buoy_source. cbn [a_gv scal3 c2].
    rewrite (Hs p Hp). ring. }
  rewrite L, R in H. apply (Rmult_eq_reg_r (dx3 M (a_v phi))); [lra|exact Hpos].
Qed.
End Theorems.

(** Relaxation keeps the sign: with a factor between 0 and 1, stable cells stay stable. *)
Theorem C77_relaxation : forall gamma minval init gb n2, 0 <= gamma <= 1 ->
  Rmin gb n2 <= buoy_solve gamma minval init gb n2 <= Rmax gb n2.
Proof.
  intros gamma minval init gb n2 Hg. unfold buoy_solve. cbv zeta.
  unfold Rmin, Rmax. destruct (Rle_dec gb n2); destruct init; nra.
Qed.

(* ------------------------------------------------------------------ *)
(** ** Smagorinsky viscosity *)
(** The gradient tensor in axes turned by an angle with cosine c and sine s. *)
Definition turned (c s : R) (g : tensor) : tensor :=
  T4 (c * (c * g00 g + s * g01 g) + s * (c * g10 g + s * g11 g))
     (c * (c * g01 g - s * g00 g) + s * (c * g11 g - s * g10 g))
     (c * (c * g10 g + s * g11 g) - s * (c * g00 g + s * g01 g))
     (c * (c * g11 g - s * g10 g) - s * (c * g01 g - s * g00 g)).
Theorem C77_orientation : forall c s cs h g, c * c + s * s = 1 -> smag_nu cs h (turned c s g) = smag_nu cs h g.
Proof.
  intros c s cs h g H. unfold smag_nu. f_equal. f_equal.
  transitivity ((c * c + s * s) * (c * c + s * s) * (d_t g ^ 2 + d_s g ^ 2)).
  - unfold d_t, d_s, turned. cbn [g00 g01 g10 g11]. ring.
  - rewrite H. ring.
Qed.
Lemma squares : forall x y, 0 <= x ^ 2 + y ^ 2.
Proof. intros x y. pose proof (pow2_ge_0 x). pose proof (pow2_ge_0 y). lra. Qed.
Lemma squares_zero : forall x y, x ^ 2 + y ^ 2 = 0 -> x = 0 /\ y = 0.
Proof.
  intros x y H. pose proof (pow2_ge_0 x). pose proof (pow2_ge_0 y).
  assert (X : x * x = 0) by (replace (x * x) with (x ^ 2) by ring; lra).
  assert (Y : y * y = 0) by (replace (y * y) with (y ^ 2) by ring; lra).
  destruct (Rmult_integral _ _ X); destruct (Rmult_integral _ _ Y); split; assumption.
Qed.
Lemma square_pos : forall x, x <> 0 -> 0 < x ^ 2.
Proof. intros x H. replace (x ^ 2) with (x * x) by ring. destruct (Rdichotomy _ _ H); nra. Qed.
(** Rigid rotation and uniform dilatation produce none, any other motion does. *)
Theorem C77_rigid_motion : forall cs h g, cs <> 0 -> h <> 0 ->
  (smag_nu cs h g = 0 <-> g00 g = g11 g /\ g01 g = - g10 g).
Proof.
  intros cs h g Hc Hh. unfold smag_nu.
  assert (P : 0 < cs ^ 2 * h ^ 2) by (apply Rmult_lt_0_compat; apply square_pos; assumption).
  split.
  - intro H. apply Rmult_integral in H. destruct H as [H|H]; [lra|].
    apply sqrt_eq_0 in H; [|apply squares].
    destruct (squares_zero _ _ H) as (A & B). unfold d_t, d_s in *. split; lra.
  - intros (A & B). unfold d_t, d_s. rewrite A, B.
    replace ((g11 g - g11 g) ^ 2 + (- g10 g + g10 g) ^ 2) with 0 by ring. rewrite sqrt_0. ring.
Qed.
(** Scaling: quadratic in the element size, linear in the shear; and the documented mesh
    Reynolds number. *)
Theorem C77_scaling : forall cs h g k l, 0 <= k ->
  smag_nu cs (l * h) (T4 (k * g00 g) (k * g01 g) (k * g10 g) (k * g11 g)) = l ^ 2 * k * smag_nu cs h g.
Proof.
  intros cs h g k l Hk. unfold smag_nu, d_t, d_s. cbn [g00 g01 g10 g11].
  replace ((k * g00 g - k * g11 g) ^ 2 + (k * g01 g + k * g10 g) ^ 2)
    with (k ^ 2 * ((g00 g - g11 g) ^ 2 + (g01 g + g10 g) ^ 2)) by ring.
  rewrite sqrt_mult; [|apply pow2_ge_0|apply squares]. rewrite sqrt_pow2 by exact Hk. ring.
Qed.
Theorem C77_mesh_reynolds : forall re h g, 0 < re -> h <> 0 -> 0 < d_t g ^ 2 + d_s g ^ 2 ->
  (sqrt (d_t g ^ 2 + d_s g ^ 2) * h) * h / smag_nu (1 / sqrt re) h g = re.
Proof.
  intros re h g Hr Hh Hs. unfold smag_nu.
  pose proof (sqrt_lt_R0 _ Hs) as Q. pose proof (sqrt_lt_R0 _ Hr) as T.
  set (q := sqrt (d_t g ^ 2 + d_s g ^ 2)) in *. clearbody q.
  rewrite <- (sqrt_sqrt re) at 2 by lra. set (t := sqrt re) in *. clearbody t. field. repeat split; lra.
Qed.
(** The stored viscosity never exceeds the maximum, and is not below the minimum unless
    the maximum is. Values inside the limits are untouched. *)
Theorem C77_clip : forall lo hi x, smag_clip lo hi x <= hi /\ Rmin lo hi <= smag_clip lo hi x /\
  (lo <= x <= hi -> smag_clip lo hi x = x) /\ smag_clip lo hi (smag_clip lo hi x) = smag_clip lo hi x.
Proof.
  intros lo hi x. unfold smag_clip, Rmin. cbv zeta.
  repeat match goal with |- context [Rlt_dec ?a ?b] => destruct (Rlt_dec a b)
                       | |- context [Rgt_dec ?a ?b] => destruct (Rgt_dec a b)
                       | |- context [Rle_dec ?a ?b] => destruct (Rle_dec a b) end;
    repeat split; intros; lra.
Qed.
Theorem C77_minimum_refuted : exists lo hi x, 0 < hi /\ smag_clip lo hi x < lo.
Proof.
  exists 1, (1/2), 3. split; [lra|]. unfold smag_clip. cbv zeta. destruct (Rlt_dec 3 1); [lra|].
  destruct (Rgt_dec 3 (1/2)); lra.
Qed.
Theorem C77_magnitude : forall u0 u1 w, magnitude (Some (u0, u1)) (Some w) ^ 2 = u0 ^ 2 + u1 ^ 2 + w ^ 2 /\
  magnitude (Some (u0, u1)) None = magnitude (Some (u0, u1)) (Some 0) /\
  magnitude None (Some w) = Rabs w /\
  forall lo u v, lo <= mag_clip lo (magnitude u v) /\ magnitude u v <= mag_clip lo (magnitude u v).
Proof.
  intros u0 u1 w. unfold magnitude. split; [|split; [|split]].
  - rewrite <- Rsqr_pow2. rewrite Rsqr_sqrt; [ring|]. pose proof (squares u0 u1). pose proof (pow2_ge_0 w). lra.
  - f_equal. ring.
  - rewrite Rplus_0_l. rewrite <- Rsqr_pow2. apply sqrt_Rsqr_abs.
  - intros lo u v. unfold mag_clip. split; [apply Rmax_r|apply Rmax_l].
Qed.

(** *** Sloping layers *)
(** One prism over [0,1] x [0,1] with a flat top at 0 and the bottom at -(1+x), quadrature at
    the midpoints. Boundary points: 0 left, 1 right, 2 and 3 front and back, 4 surface, 5
    bottom. *)
Definition wedge : mesh3 unit Empty_set nat :=
  mk_mesh3 [tt] (fun _ => 3/2) [] [] (fun _ => 0) (fun _ => zero3)
    [4%nat] [5%nat] [0%nat; 1%nat; 2%nat; 3%nat]
    (fun e => match e with 0%nat => 1 | 1%nat => 2 | 2%nat => 3/2 | 3%nat => 3/2 | 4%nat => 1 | _ => sqrt 2 end)
    (fun e => match e with 0%nat => V3 (-1) 0 0 | 1%nat => V3 1 0 0 | 2%nat => V3 0 (-1) 0 | 3%nat => V3 0 1 0
                         | 4%nat => V3 0 0 1 | _ => V3 (- / sqrt 2) 0 (- / sqrt 2) end)
    (fun _ => 1%nat).
(** The affine function a + bx + cy + dz at the midpoints (the centroid of the trapezoid is at
    x = 5/9, z = -7/9). *)
Definition affine3 (a b c d : R) : sfield3 unit Empty_set nat :=
  mk_s3 (fun _ => a + b * (5/9) + c * (1/2) + d * (- (7/9))) (fun _ => V3 b c d)
    (fun (f : Empty_set) (_ : bool) => match f with end) (fun (f : Empty_set) (_ : bool) => match f with end)
    (fun e => match e with
              | 0%nat => a + c * (1/2) - d * (1/2) | 1%nat => a + b + c * (1/2) - d
              | 2%nat => a + b * (5/9) - d * (7/9) | 3%nat => a + b * (5/9) + c - d * (7/9)
              | 4%nat => a + b * (1/2) + c * (1/2) | _ => a + b * (1/2) + c * (1/2) - d * (3/2) end)
    (fun _ => V3 b c d).
Ltac open_wedge := unfold gauss_axis, hgrad_rhs, grad_lhs, vgrad_rhs, dx3, dS_v, dS_h, ds_surf, ds_bottom, ds_lat, wedge, integral, const3, affine3, zero3;
  cbn -[Rplus Rmult Rminus Rdiv Ropp Rinv IZR sqrt].
Lemma wedge_gauss : forall a k x y z t, gauss_axis wedge a (const3 k) (affine3 x y z t).
Proof.
  intros a k x y z t. pose proof Rlt_sqrt2_0 as S2. destruct a; open_wedge; field; lra.
Qed.
(** A uniform flow over a sloping bottom is given a spurious strain, hence a viscosity, in
    the bottom layer. *)
Theorem C77_uniform_flow_refuted :
  (forall a k x y z t, gauss_axis wedge a (const3 k) (affine3 x y z t)) /\ vertical_columns wedge /\
  forall u cs h gxx gxy gyx gyy, u <> 0 -> cs <> 0 -> h <> 0 ->
    (forall x y z t, let phi := affine3 x y z t in
       grad_lhs wedge gxx phi = hgrad_rhs wedge AX (const3 u) phi /\
       grad_lhs wedge gxy phi = hgrad_rhs wedge AY (const3 u) phi /\
       grad_lhs wedge gyx phi = hgrad_rhs wedge AX (const3 0) phi /\
       grad_lhs wedge gyy phi = hgrad_rhs wedge AY (const3 0) phi) ->
    a_v gxx tt = 2/3 * u /\
    0 < smag_nu cs h (T4 (a_v gxx tt) (a_v gxy tt) (a_v gyx tt) (a_v gyy tt)).
Proof.
  split; [exact wedge_gauss|]. split.
  { split; [intros []|]. intros e [<-|[<-|[<-|[<-|[]]]]]; reflexivity. }
  intros u cs h gxx gxy gyx gyy Hu Hcs Hh H. specialize (H 1 0 0 0). cbv zeta in H.
  destruct H as (A & B & C & D).
  assert (A' : a_v gxx tt = 2/3 * u). { revert A. open_wedge. intro A. lra. }
  assert (B' : a_v gxy tt = 0). { revert B. open_wedge. intro B. lra. }
  assert (C' : a_v gyx tt = 0). { revert C. open_wedge. intro C. lra. }
  assert (D' : a_v gyy tt = 0). { revert D. open_wedge. intro D. lra. }
  split; [exact A'|]. rewrite A', B', C', D'. unfold smag_nu, d_t, d_s. cbn [g00 g01 g10 g11].
  apply Rmult_lt_0_compat; [apply Rmult_lt_0_compat; apply square_pos; assumption|]. apply sqrt_lt_R0.
  pose proof (square_pos u Hu). replace ((2 / 3 * u - 0) ^ 2 + (0 + 0) ^ 2) with (4 / 9 * u ^ 2) by field. lra.
Qed.
(** On the same wedge the vertical gradient is exact. *)
Example wedge_vertical : vgrad_rhs wedge (affine3 0 0 0 2) (const3 (V:=unit) (F:=Empty_set) (E:=nat) 1) = 2 * (3/2).
Proof. pose proof Rlt_sqrt2_0. open_wedge. field. lra. Qed.
(** Two layers of height one; density 4 to 3 below and 2 to 1 above; the lower cell. *)
Definition two_layers : mesh3 bool unit bool :=
  mk_mesh3 [false; true] (fun _ => 1) [tt] [] (fun _ => 1) (fun _ => V3 0 0 1) [true] [false] []
    (fun _ => 1) (fun e : bool => V3 0 0 (if e then 1 else -1)) (fun _ => 1%nat).
Definition rho_steps : sfield3 bool unit bool :=
  mk_s3 (fun p : bool => if p then 3/2 else 7/2) (fun _ => V3 0 0 (-1)) (fun (_ : unit) (s : bool) => if s then 3 else 2)
    (fun _ _ => V3 0 0 (-1)) (fun e : bool => if e then 1 else 4) (fun _ => V3 0 0 (-1)).
Definition lower_cell : sfield3 bool unit bool :=
  mk_s3 (fun p : bool => if p then 0 else 1) (fun _ => zero3) (fun (_ : unit) (s : bool) => if s then 1 else 0)
    (fun _ _ => zero3) (fun e : bool => if e then 0 else 1) (fun _ => zero3).
Definition n2_of (v : R) : sfield3 bool unit bool := const3 v.
Example stable_case : positive3 two_layers /\ vertical_columns two_layers /\ stable two_layers rho_steps
  /\ gauss_axis two_layers AZ (buoy_source 10 1000 rho_steps) lower_cell
  /\ 0 < dx3 two_layers (a_v lower_cell)
  /\ grad_lhs two_layers (n2_of (3/200)) lower_cell = vgrad_rhs two_layers (buoy_source 10 1000 rho_steps) lower_cell.
Proof.
  split; [|split; [|split; [|split; [|split]]]].
  - unfold positive3, two_layers. cbn. repeat split; intros; lra.
  - split; cbn [two_layers g_ver g_lat In]; contradiction.
  - unfold stable, two_layers, jump. cbn. split; intros; lra.
  - unfold gauss_axis, dx3, dS_v, dS_h, ds_surf, ds_bottom, ds_lat, integral, jump. cbn -[Rplus Rmult Rminus Rdiv Ropp Rinv IZR]. field.
  - unfold dx3, integral. cbn -[Rplus Rmult IZR]. lra.
  - unfold grad_lhs, vgrad_rhs, dx3, dS_h, ds_surf, ds_bottom, integral, avg, jump_n. cbn -[Rplus Rmult Rminus Rdiv Ropp Rinv IZR]. lra.
Qed.
Example strain_case : smag_nu 1 2 (T4 3 0 0 (-3)) = 24 /\ smag_nu 1 2 (T4 1 5 (-5) 1) = 0.
Proof.
  unfold smag_nu, d_t, d_s. cbn [g00 g01 g10 g11]. split.
  - replace ((3 - -3) ^ 2 + (0 + 0) ^ 2) with (6 ^ 2) by ring. rewrite sqrt_pow2 by lra. ring.
  - replace ((1 - 1) ^ 2 + (5 + -5) ^ 2) with 0 by ring. rewrite sqrt_0. ring.
Qed.

(* ------------------------------------------------------------------ *)
(** ** The mesh metric *)
Definition bounded (l : list R) : Prop := forall z, In z l -> -1e20 <= z <= 1e20.
Lemma z_max_spec : forall l, l <> [] -> bounded l -> In (z_max l) l /\ forall z, In z l -> z <= z_max l.
Proof.
  assert (G : forall l m, (forall z, In z l -> z <= fold_left (fun m z => Rmax z m) l m) /\
     m <= fold_left (fun m z => Rmax z m) l m /\
     (fold_left (fun m z => Rmax z m) l m = m \/ In (fold_left (fun m z => Rmax z m) l m) l)).
  { induction l as [|x l IH]; intro m; cbn [fold_left]; [split; [intros ? []|split; [lra|now left]]|].
    destruct (IH (Rmax x m)) as (A & B & C). pose proof (Rmax_l x m). pose proof (Rmax_r x m).
    split; [|split].
    - intros z [<-|Hz]; [lra|now apply A].
    - lra.
    - destruct C as [C|C]; [|right; now right]. rewrite C. unfold Rmax. destruct (Rle_dec x m); [now left|right; now left]. }
  intros l Hl Hb. unfold z_max. destruct (G l (-1e20)) as (A & B & C). split; [|exact A].
  destruct C as [C|C]; [|exact C]. destruct l as [|x l]; [contradiction|].
  pose proof (A x (or_introl eq_refl)) as Q. pose proof (Hb x (or_introl eq_refl)) as W.
  rewrite C in *. assert (x = -1e20) by lra. subst x. now left.
Qed.
Lemma z_min_spec : forall l, l <> [] -> bounded l -> In (z_min l) l /\ forall z, In z l -> z_min l <= z.
Proof.
  assert (G : forall l m, (forall z, In z l -> fold_left (fun m z => Rmin z m) l m <= z) /\
     fold_left (fun m z => Rmin z m) l m <= m /\
     (fold_left (fun m z => Rmin z m) l m = m \/ In (fold_left (fun m z => Rmin z m) l m) l)).
  { induction l as [|x l IH]; intro m; cbn [fold_left]; [split; [intros ? []|split; [lra|now left]]|].
    destruct (IH (Rmin x m)) as (A & B & C). pose proof (Rmin_l x m). pose proof (Rmin_r x m).
    split; [|split].
    - intros z [<-|Hz]; [lra|now apply A].
    - lra.
    - destruct C as [C|C]; [|right; now right]. rewrite C. unfold Rmin. destruct (Rle_dec x m); [right; now left|now left]. }
  intros l Hl Hb. unfold z_min. destruct (G l (1e20)) as (A & B & C). split; [|exact A].
  destruct C as [C|C]; [|exact C]. destruct l as [|x l]; [contradiction|].
  pose proof (A x (or_introl eq_refl)) as Q. pose proof (Hb x (or_introl eq_refl)) as W.
  rewrite C in *. assert (x = 1e20) by lra. subst x. now left.
Qed.
(** Prisms with positive height at every edge. *)
Definition prism_ok (prism : list (R * R)) : Prop :=
  prism <> [] /\ bounded (map fst prism) /\ bounded (map snd prism) /\ forall e, In e prism -> fst e < snd e.
(** The value at a node: the extent of its facet over the height of its own edge. *)
Theorem C77_hcc_value : forall prism e r, prism_ok prism -> In (e, r) (combine prism (hcc prism)) ->
  (exists a b, In a prism /\ In b prism /\ fst r = (fst a - fst b) / (snd e - fst e) /\
     forall c, In c prism -> fst b <= fst c <= fst a) /\
  (exists a b, In a prism /\ In b prism /\ snd r = (snd a - snd b) / (snd e - fst e) /\
     forall c, In c prism -> snd b <= snd c <= snd a).
Proof.
  intros prism e r (NE & Bf & Bs & Hh) H. unfold hcc in H. cbv zeta in H.
  assert (CM : forall (A B : Type) (f : A -> B) l x y, In (x, y) (combine l (map f l)) -> y = f x).
  { intros A B f l. induction l as [|z l IH]; intros x y Q; [destruct Q|]. cbn in Q. destruct Q as [Q|Q]; [congruence|now apply IH]. }
  apply CM in H. cbv beta zeta in H. subst r. cbn [fst snd].
  assert (Nf : map fst prism <> []) by (destruct prism; [contradiction|discriminate]).
  assert (Ns : map snd prism <> []) by (destruct prism; [contradiction|discriminate]).
  destruct (z_max_spec _ Nf Bf) as (A1 & A2). destruct (z_min_spec _ Nf Bf) as (A3 & A4).
  destruct (z_max_spec _ Ns Bs) as (B1 & B2). destruct (z_min_spec _ Ns Bs) as (B3 & B4).
  split.
  - apply in_map_iff in A1. destruct A1 as (a & Ea & Ia). apply in_map_iff in A3. destruct A3 as (b & Eb & Ib).
    exists a, b. split; [exact Ia|]. split; [exact Ib|]. split; [now rewrite Ea, Eb|].
    intros c Ic. rewrite Ea, Eb. split; [apply A4|apply A2]; now apply in_map.
  - apply in_map_iff in B1. destruct B1 as (a & Ea & Ia). apply in_map_iff in B3. destruct B3 as (b & Eb & Ib).
    exists a, b. split; [exact Ia|]. split; [exact Ib|]. split; [now rewrite Ea, Eb|].
    intros c Ic. rewrite Ea, Eb. split; [apply B4|apply B2]; now apply in_map.
Qed.
Lemma combine_in : forall prism e, In e prism -> exists r, In (e, r) (combine prism (hcc prism)).
Proof.
  intros prism e H. unfold hcc. cbv zeta.
  match goal with |- context [map ?f prism] => set (g := f) end. clearbody g.
  exists (g e). induction prism as [|x l IH]; [destruct H|]. cbn. destruct H as [<-|H]; [now left|right; now apply IH].
Qed.
(** Straight prism: zero. Never negative. *)
Theorem C77_hcc_flat : forall prism, prism_ok prism ->
  ((forall e r, In (e, r) (combine prism (hcc prism)) -> fst r = 0 /\ snd r = 0) <->
   forall a b, In a prism -> In b prism -> fst a = fst b /\ snd a = snd b).
Proof.
  intros prism Ok. destruct Ok as (NE & Bf & Bs & Hh).
  assert (Ok : prism_ok prism) by (repeat split; [assumption|apply Bf; assumption|apply Bf; assumption|apply Bs; assumption|apply Bs; assumption|apply Hh]).
  split.
  - intros H a b Ia Ib. destruct (combine_in prism a Ia) as (r & Hr). destruct (H a r Hr) as (Z1 & Z2).
    destruct (C77_hcc_value prism a r Ok Hr) as ((p & q & Ip & Iq & E1 & R1) & (s & t & Is & It & E2 & R2)).
    pose proof (Hh a Ia) as Ha.
    assert (D1 : fst p - fst q = 0).
    { rewrite Z1 in E1. apply (Rmult_eq_reg_r (/ (snd a - fst a))); [unfold Rdiv in E1; lra|]. apply Rinv_neq_0_compat. lra. }
    assert (D2 : snd s - snd t = 0).
    { rewrite Z2 in E2. apply (Rmult_eq_reg_r (/ (snd a - fst a))); [unfold Rdiv in E2; lra|]. apply Rinv_neq_0_compat. lra. }
    pose proof (R1 a Ia). pose proof (R1 b Ib). pose proof (R2 a Ia). pose proof (R2 b Ib). split; lra.
  - intros H e r Hr.
    destruct (C77_hcc_value prism e r Ok Hr) as ((p & q & Ip & Iq & E1 & R1) & (s & t & Is & It & E2 & R2)).
    rewrite E1, E2. destruct (H p q Ip Iq) as (-> & _). destruct (H s t Is It) as (_ & ->).
    split; unfold Rdiv; ring.
Qed.
Theorem C77_hcc_nonneg : forall prism e r, prism_ok prism -> In (e, r) (combine prism (hcc prism)) ->
  0 <= fst r /\ 0 <= snd r.
Proof.
  intros prism e r Ok Hr. pose proof (in_combine_l _ _ _ _ Hr) as Ie.
  destruct (C77_hcc_value prism e r Ok Hr) as ((p & q & Ip & Iq & E1 & R1) & (s & t & Is & It & E2 & R2)).
  destruct Ok as (_ & _ & _ & Hh). specialize (Hh e Ie). pose proof (R1 p Ip). pose proof (R2 s Is).
  rewrite E1, E2. split; (apply Rmult_le_pos; [lra|apply Rlt_le, Rinv_0_lt_compat; lra]).
Qed.
(** The criterion does what it says: if the bottom values are all below one, the highest bottom
    node lies below the lowest surface node; likewise for the surface values. *)
Theorem C77_hcc_criterion : forall prism, prism_ok prism ->
  ((forall e r, In (e, r) (combine prism (hcc prism)) -> fst r < 1) \/
   (forall e r, In (e, r) (combine prism (hcc prism)) -> snd r < 1)) ->
  forall a b, In a prism -> In b prism -> fst a < snd b.
Proof.
  intros prism Ok H a b Ia Ib.
  assert (Hh : forall e, In e prism -> fst e < snd e) by apply Ok.
  assert (LT : forall x h, 0 < h -> x / h < 1 -> x < h).
  { intros x h Hp Q. apply (Rmult_lt_compat_r h) in Q; [|exact Hp].
    replace (x / h * h) with x in Q by (field; lra). lra. }
  destruct H as [H|H].
  - destruct (combine_in prism b Ib) as (r & Hr). specialize (H b r Hr).
    destruct (C77_hcc_value prism b r Ok Hr) as ((p & q & Ip & Iq & E1 & R1) & _).
    rewrite E1 in H. apply LT in H; [|specialize (Hh b Ib); lra].
    pose proof (R1 a Ia). pose proof (R1 b Ib). lra.
  - destruct (combine_in prism a Ia) as (r & Hr). specialize (H a r Hr).
    destruct (C77_hcc_value prism a r Ok Hr) as (_ & (p & q & Ip & Iq & E1 & R1)).
    rewrite E1 in H. apply LT in H; [|specialize (Hh a Ia); lra].
    pose proof (R1 a Ia). pose proof (R1 b Ib). lra.
Qed.
(** But not the documented R = 1 exactly when they meet: the height is that of the edge, so the
    metric exceeds one although all bottom nodes are well below all surface nodes. *)
Theorem C77_hcc_converse_refuted : exists prism, prism_ok prism /\
  (forall a b, In a prism -> In b prism -> fst a < snd b) /\
  exists e r, In (e, r) (combine prism (hcc prism)) /\ 1 < fst r.
Proof.
  exists [(-3, 0); (-1, 0); (-3, 0)].
  assert (B1 : bounded [-3; -1; -3]) by (intros z [<-|[<-|[<-|[]]]]; lra).
  assert (B2 : bounded [0; 0; 0]) by (intros z [<-|[<-|[<-|[]]]]; lra).
  split; [|split].
  - split; [discriminate|]. split; [exact B1|]. split; [exact B2|]. intros e [<-|[<-|[<-|[]]]]; cbn; lra.
  - intros a b [<-|[<-|[<-|[]]]] [<-|[<-|[<-|[]]]]; cbn; lra.
  - exists (-1, 0).
    assert (E1 : z_max [-3; -1; -3] = -1).
    { destruct (z_max_spec [-3; -1; -3] ltac:(discriminate) B1) as (A & B).
      pose proof (B (-1) ltac:(right; now left)). destruct A as [A|[A|[A|[]]]]; lra. }
    assert (E2 : z_min [-3; -1; -3] = -3).
    { destruct (z_min_spec [-3; -1; -3] ltac:(discriminate) B1) as (A & B).
      pose proof (B (-3) ltac:(now left)). destruct A as [A|[A|[A|[]]]]; lra. }
    eexists. split; [cbn [combine hcc map fst snd]; right; left; reflexivity|]. cbn [fst snd map].
    rewrite E1, E2. lra.
Qed.

Print Assumptions C77_horizontal_gradient.
Print Assumptions C77_level_layers.
Print Assumptions C77_gradient_exact.
Print Assumptions C77_vertical_gradient.
Print Assumptions C77_vertical_total.
Print Assumptions C77_stable_stratification.
Print Assumptions C77_linear_stratification.
Print Assumptions C77_relaxation.
Print Assumptions C77_orientation.
Print Assumptions C77_rigid_motion.
Print Assumptions C77_scaling.
Print Assumptions C77_mesh_reynolds.
Print Assumptions C77_clip.
Print Assumptions C77_minimum_refuted.
Print Assumptions C77_magnitude.
Print Assumptions C77_uniform_flow_refuted.
Print Assumptions C77_hcc_value.
Print Assumptions C77_hcc_flat.
Print Assumptions C77_hcc_nonneg.
Print Assumptions C77_hcc_criterion.
Print Assumptions C77_hcc_converse_refuted.
