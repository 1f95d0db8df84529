(** C90: the linear shallow water forms with combined drivers. *)
From Coq Require Import Reals List String Bool Arith Lia Lra FunctionalExtensionality.
From Verif Require Import Forms_Model Forms_Spec Forms_Proofs P_SWE
  RK_Model RK_Spec RK_Proofs Galerkin_Model Galerkin_Proofs P_Galerkin WaveEnergy_Proofs Super_Spec Super_Proofs
  Super_Swe_Spec.
Import ListNotations.
Open Scope R_scope.

Section Swe.
Context {V F B : Type}.
Local Notation sfield := (sfield V F B).
Local Notation vfield := (vfield V F B).
Variable E : swe_env V F B.
Hypothesis HL : linear_equations E.
Variables a b : R.
Variables d d1 d2 : drivers V B.
Hypothesis HD : mixed_drivers a b d d1 d2.
Notation Em := (driven E d).
Notation E1 := (driven E d1).
Notation E2 := (driven E d2).
Notation ms := (mix_s (V:=V) (F:=F) (B:=B) a b).
Definition mix_v (u v : vfield) : vfield := mk_vf (ms (v_x u) (v_x v)) (ms (v_y u) (v_y v)).

Lemma depth_any : forall x y z, e_depth E x y = e_depth E x z.
Proof. intros. apply HL. Qed.
Lemma hv_any : forall dd e e' p, hv (driven E dd) e p = hv (driven E d) e' p.
Proof. intros. apply depth_any. Qed.
Lemma hf_any : forall dd e e' f, hf (driven E dd) e f = hf (driven E d) e' f.
Proof. intros. apply functional_extensionality. intro s. apply depth_any. Qed.
Lemma hb_any : forall dd e e' x, hb (driven E dd) e x = hb (driven E d) e' x.
Proof. intros. apply depth_any. Qed.

Lemma eta_ext_mix : forall e e1 e2 p q x, mixed a b (ex_eta e) (ex_eta e1) (ex_eta e2) ->
  eta_ext e (s_b (ms p q)) x = a * eta_ext e1 (s_b p) x + b * eta_ext (B:=B) e2 (s_b q) x.
Proof.
  intros e e1 e2 p q x H. unfold eta_ext. destruct (ex_eta e), (ex_eta e1), (ex_eta e2); cbn [mixed] in H; try contradiction.
  - apply H.
  - reflexivity.
Qed.

Lemma uv_ext_mix : forall e e1 e2 p q u v x, mixed_uv a b (ex_uv e) (ex_uv e1) (ex_uv e2) ->
  uv_ext Em e (s_b (ms p q)) (vb (mix_v u v)) x
  = (a * fst (uv_ext E1 e1 (s_b p) (vb u) x) + b * fst (uv_ext E2 e2 (s_b q) (vb v) x),
     a * snd (uv_ext E1 e1 (s_b p) (vb u) x) + b * snd (uv_ext E2 e2 (s_b q) (vb v) x)).
Proof.
  intros e e1 e2 p q u v x H. unfold uv_ext. cbv zeta.
  destruct (ex_uv e), (ex_uv e1), (ex_uv e2); cbn [mixed_uv] in H; try contradiction; cbn [fst snd].
  - reflexivity.
  - apply H.
  - rewrite H. cbn [driven e_mesh]. f_equal; ring.
  - rewrite H. rewrite (hb_any d1 _ (eta_ext e (s_b (ms p q))) x), (hb_any d2 _ (eta_ext e (s_b (ms p q))) x).
    cbn [driven e_mesh e_len]. unfold Rdiv. f_equal; ring.
Qed.

Ltac open_ := unfold mix_v, mix_s, avg_t, grad_v, grad_f, grad_b, tensor_jump, outer, stress_of, sym_t, inner_t, vec_t, add_t, scal_t,
  jump_vn, jump_n, unb, avg_v, normal, jump, avg, divv, vv, vf, vb, dot2, scal2, add2, sub2;
  cbn [driven e_mesh e_g e_grad_div zero_v const_v const_s add_v scale_v add_s scale_s v_x v_y s_v s_gv s_f s_gf s_b s_gb fst snd];
  unfold dot2, scal2, add2, sub2; cbn [fst snd]; unfold Rdiv.
Ltac pt := intros; open_; ring.
Ltac bnd x H := let Hb := fresh in pose proof (proj1 HD (m_marker (e_mesh E) x)) as H;
  cbn [driven e_mesh e_bnd] in *;
  destruct (d_bnd d _) as [|e0], (d_bnd d1 _) as [|e1], (d_bnd d2 _) as [|e2]; cbn [mixed_rbnd] in H; try contradiction.

Lemma pressure_mix : forall psi u v p q o o1 o2,
  pressure_gradient Em psi (mix_v u v) (ms p q) o
  = a * pressure_gradient E1 psi u p o1 + b * pressure_gradient E2 psi v q o2.
Proof.
  intros psi u v p q o o1 o2. unfold pressure_gradient.
  change (e_eta_dg E1) with (e_eta_dg E). change (e_eta_dg E2) with (e_eta_dg E). change (e_eta_dg Em) with (e_eta_dg E).
  destruct (e_eta_dg E).
  - match goal with |- - (- ?g * ?x + ?g * ?P + ?g * ?Q) = a * - (- _ * ?x1 + _ * ?P1 + _ * ?Q1) + b * - (- _ * ?x2 + _ * ?P2 + _ * ?Q2) =>
      assert (HA : x = a * x1 + b * x2) by (apply integral_mix; pt);
      assert (HP : P = a * P1 + b * P2); [|enough (HQ : Q = a * Q1 + b * Q2) by (rewrite HA, HP, HQ; cbn [driven e_g]; ring); clear HA HP] end.
    + apply integral_mix. intros f _. rewrite (hf_any d1 o1 o f), (hf_any d2 o2 o f).
      generalize (sqrt (avg (hf Em o f) / e_g E)). cbn [driven e_g]. intro sq. pt.
    + apply integral_mix. intros x _. bnd x H.
      * rewrite (hb_any d1 (s_b o1) (s_b o) x), (hb_any d2 (s_b o2) (s_b o) x). cbn [driven e_g].
        generalize (sqrt (hb Em (s_b o) x / e_g E)). intro sq. pt.
      * destruct H as (H1 & H2 & _). cbv zeta. rewrite (uv_ext_mix e0 e1 e2 p q u v x H2), (eta_ext_mix e0 e1 e2 p q x H1).
        rewrite (hb_any d1 (s_b o1) (s_b o) x), (hb_any d2 (s_b o2) (s_b o) x). cbn [driven e_g].
        generalize (sqrt (hb Em (s_b o) x / e_g E)). intro sq.
        generalize (uv_ext E1 e1 (s_b p) (vb u) x) (uv_ext E2 e2 (s_b q) (vb v) x). intros [] []. pt.
  - match goal with |- - (?g * ?x + ?g * ?Q) = a * - (_ * ?x1 + _ * ?Q1) + b * - (_ * ?x2 + _ * ?Q2) =>
      assert (HA : x = a * x1 + b * x2) by (apply integral_mix; pt);
      enough (HQ : Q = a * Q1 + b * Q2) by (rewrite HA, HQ; cbn [driven e_g]; ring); clear HA end.
    apply integral_mix. intros x _. bnd x H; [ring|].
    destruct H as (H1 & H2 & _). cbv zeta. rewrite (uv_ext_mix e0 e1 e2 p q u v x H2), (eta_ext_mix e0 e1 e2 p q x H1).
    rewrite (hb_any d1 (s_b o1) (s_b o) x), (hb_any d2 (s_b o2) (s_b o) x). cbn [driven e_g].
    generalize (sqrt (hb Em (s_b o) x / e_g E)). intro sq.
    generalize (uv_ext E1 e1 (s_b p) (vb u) x) (uv_ext E2 e2 (s_b q) (vb v) x). intros [] []. pt.
Qed.

Lemma hu_div_mix : forall phi u v p q uo uo1 uo2 o o1 o2 dv dv1 dv2,
  (e_u_jump E = false -> forall x, dv x = a * dv1 x + b * dv2 x) ->
  hu_div Em phi (mix_v u v) (ms p q) uo o dv
  = a * hu_div E1 phi u p uo1 o1 dv1 + b * hu_div E2 phi v q uo2 o2 dv2.
Proof.
  intros phi u v p q uo uo1 uo2 o o1 o2 dv dv1 dv2 Hdv. unfold hu_div.
  change (e_eta_dg E1) with (e_eta_dg E). change (e_eta_dg E2) with (e_eta_dg E). change (e_eta_dg Em) with (e_eta_dg E).
  change (e_u_jump E1) with (e_u_jump E). change (e_u_jump E2) with (e_u_jump E). change (e_u_jump Em) with (e_u_jump E).
  destruct (e_u_jump E).
  - match goal with |- - (- ?x + ?P + ?Q) = a * - (- ?x1 + ?P1 + ?Q1) + b * - (- ?x2 + ?P2 + ?Q2) =>
      assert (HA : x = a * x1 + b * x2);
      [|assert (HP : P = a * P1 + b * P2); [|enough (HQ : Q = a * Q1 + b * Q2) by (rewrite HA, HP, HQ; ring); clear HA HP]] end.
    + apply integral_mix. intros x _. rewrite (hv_any d1 o1 o x), (hv_any d2 o2 o x). pt.
    + destruct (e_eta_dg E); [|ring]. apply integral_mix. intros f _. cbv zeta.
      rewrite (hf_any d1 o1 o f), (hf_any d2 o2 o f). cbn [driven e_g e_mesh].
      generalize (sqrt (e_g E / avg (hf Em o f))) (avg (hf Em o f)). intros sq h. pt.
    + apply integral_mix. intros x _. bnd x H; [ring|]. destruct H as (H1 & H2 & _). unfold hu_flux_b. cbv zeta.
      rewrite (uv_ext_mix e0 e1 e2 p q u v x H2), (eta_ext_mix e0 e1 e2 p q x H1).
      rewrite !(hb_any d1 _ (fun _ => 0) x), !(hb_any d2 _ (fun _ => 0) x), (hb_any d (s_b o) (fun _ => 0) x), (hb_any d (eta_ext e0 (s_b o)) (fun _ => 0) x).
      cbn [driven e_depth e_bath_b e_g e_mesh].
      match goal with |- e_depth E ?bb ?r * _ * _ = a * (e_depth E _ ?r1 * _ * _) + b * (e_depth E _ ?r2 * _ * _) =>
        rewrite (depth_any bb r 0), (depth_any bb r1 0), (depth_any bb r2 0) end.
      generalize (sqrt (e_g E / (0.5 * (hb Em (fun _ => 0) x + hb Em (fun _ => 0) x)))) (e_depth E (e_bath_b E x) 0). intros sq h.
      generalize (uv_ext E1 e1 (s_b p) (vb u) x) (uv_ext E2 e2 (s_b q) (vb v) x). intros [] []. pt.
  - specialize (Hdv eq_refl).
    match goal with |- - (?x + ?Q) = a * - (?x1 + ?Q1) + b * - (?x2 + ?Q2) =>
      assert (HA : x = a * x1 + b * x2) by (apply integral_mix; intros y _; rewrite Hdv; ring);
      enough (HQ : Q = a * Q1 + b * Q2) by (rewrite HA, HQ; ring); clear HA end.
    apply integral_mix. intros x _. rewrite !(hb_any d1 _ (fun _ => 0) x), !(hb_any d2 _ (fun _ => 0) x), (hb_any d (s_b o) (fun _ => 0) x).
    bnd x H; [pt|]. destruct H as (_ & _ & H3).
    destruct (ex_un e0), (ex_un e1), (ex_un e2); cbn [mixed] in H3; try contradiction; pt.
Qed.

Lemma viscosity_mix : forall psi u v p q o o1 o2,
  viscosity Em psi (mix_v u v) (ms p q) o = a * viscosity E1 psi u p o1 + b * viscosity E2 psi v q o2.
Proof.
  intros psi u v p q o o1 o2. unfold viscosity.
  change (e_nu E1) with (e_nu E). change (e_nu E2) with (e_nu E). change (e_nu Em) with (e_nu E).
  change (e_u_jump E1) with (e_u_jump E). change (e_u_jump E2) with (e_u_jump E). change (e_u_jump Em) with (e_u_jump E).
  change (e_grad_depth E1) with (e_grad_depth E). change (e_grad_depth E2) with (e_grad_depth E). change (e_grad_depth Em) with (e_grad_depth E).
  destruct (e_nu E) as [nu|]; [|ring].
  match goal with |- - (?x + ?P + ?Q) = a * - (?x1 + ?P1 + ?Q1) + b * - (?x2 + ?P2 + ?Q2) =>
    assert (HA : x = a * x1 + b * x2);
    [|assert (HP : P = a * P1 + b * P2); [|enough (HQ : Q = a * Q1 + b * Q2) by (rewrite HA, HP, HQ; ring); clear HA HP]] end.
  - apply integral_mix. intros x _. unfold stress_of. cbn [driven e_grad_div]. destruct (e_grad_div E); pt.
  - clear HA. destruct (e_u_jump E); [|ring].
    match goal with |- ?x + ?P = a * (?x1 + ?P1) + b * (?x2 + ?P2) =>
      assert (HA : x = a * x1 + b * x2); [|enough (HP : P = a * P1 + b * P2) by (rewrite HA, HP; ring); clear HA] end.
    + apply integral_mix. intros f _. cbv zeta. change (sigma_max E1 f) with (sigma_max E f).
      change (sigma_max E2 f) with (sigma_max E f). change (sigma_max Em f) with (sigma_max E f).
      generalize (sigma_max E f). intro sg. unfold stress_of. cbn [driven e_grad_div e_mesh]. destruct (e_grad_div E); pt.
    + apply integral_mix. intros x _. bnd x H; [ring|]. destruct H as (H1 & H2 & H3). unfold delta_uv.
      destruct (ex_un e0), (ex_un e1), (ex_un e2); cbn [mixed] in H3; try contradiction.
      * cbv zeta. rewrite H3. unfold stress_of. cbn [driven e_grad_div e_mesh e_sigma_b]. destruct (e_grad_div E); pt.
      * pose proof (uv_ext_mix e0 e1 e2 p q u v x H2) as Q. rewrite Q. clear Q.
        destruct (ex_uv e0), (ex_uv e1), (ex_uv e2); cbn [mixed_uv] in H2; try contradiction; [ring| | |];
        cbv zeta; generalize (uv_ext E1 e1 (s_b p) (vb u) x) (uv_ext E2 e2 (s_b q) (vb v) x); intros [] [];
        unfold stress_of; cbn [driven e_grad_div e_mesh e_sigma_b]; destruct (e_grad_div E); pt.
  - destruct (e_grad_depth E); [|ring]. apply integral_mix. intros x _.
    rewrite (hv_any d1 o1 o x), (hv_any d2 o2 o x). cbn [driven e_grad_h].
    generalize (/ hv Em o x). intro h. unfold stress_of. cbn [driven e_grad_div]. destruct (e_grad_div E); pt.
Qed.

Lemma coriolis_mix : forall psi u v, coriolis Em psi (mix_v u v) = a * coriolis E1 psi u + b * coriolis E2 psi v.
Proof.
  intros psi u v. unfold coriolis. cbn [driven e_coriolis e_mesh]. destruct (e_coriolis E); [|ring].
  match goal with |- - ?x = a * - ?x1 + b * - ?x2 => enough (x = a * x1 + b * x2) as -> by ring end.
  apply integral_mix. pt.
Qed.
Lemma linear_drag_mix : forall psi u v, linear_drag Em psi (mix_v u v) = a * linear_drag E1 psi u + b * linear_drag E2 psi v.
Proof.
  intros psi u v. unfold linear_drag. cbn [driven e_linear e_mesh]. destruct (e_linear E); [|ring].
  match goal with |- - ?x = a * - ?x1 + b * - ?x2 => enough (x = a * x1 + b * x2) as -> by ring end.
  apply integral_mix. pt.
Qed.

Lemma wind_mix : forall psi o o1 o2, wind Em psi o = a * wind E1 psi o1 + b * wind E2 psi o2.
Proof.
  assert (G : forall dd psi o, wind (driven E dd) psi o = dx (e_mesh E) (fun p => dot2 (given2 (d_wind dd) p) (vv psi p) / hv Em o p / e_rho0 E)).
  { intros dd psi o. unfold wind. cbn [driven e_wind]. destruct (d_wind dd) as [dg|]; cbn [given2].
    - apply integral_ext. intros p _. rewrite (hv_any dd o o). reflexivity.
    - symmetry. apply integral_zero. intros p _. unfold dot2, Rdiv. cbn. ring. }
  intros psi o o1 o2. rewrite !G. apply integral_mix. intros p _. destruct HD as (_ & H & _). rewrite (H p).
  rewrite (hv_any d o1 o p), (hv_any d o2 o p). generalize (hv Em o p). intro h.
  generalize (given2 (d_wind d1) p) (given2 (d_wind d2) p). intros [] []. pt.
Qed.
Lemma atmospheric_mix : forall psi, atmospheric Em psi = a * atmospheric E1 psi + b * atmospheric E2 psi.
Proof.
  assert (G : forall dd psi, atmospheric (driven E dd) psi = - dx (e_mesh E) (fun p => dot2 (given2 (d_patm dd) p) (vv psi p) / e_rho0 E)).
  { intros dd psi. unfold atmospheric. cbn [driven e_patm_grad]. destruct (d_patm dd) as [dg|]; cbn [given2]; [reflexivity|].
    unfold dx. rewrite integral_zero; [ring|]. intros p _. unfold dot2, Rdiv. cbn. ring. }
  intros psi. rewrite !G.
  match goal with |- - ?x = a * - ?x1 + b * - ?x2 => enough (x = a * x1 + b * x2) as -> by ring end.
  apply integral_mix. intros p _. destruct HD as (_ & _ & H & _). rewrite (H p).
  generalize (given2 (d_patm d1) p) (given2 (d_patm d2) p). intros [] []. pt.
Qed.
Lemma msource_mix : forall psi, momentum_source Em psi = a * momentum_source E1 psi + b * momentum_source E2 psi.
Proof.
  assert (G : forall dd psi, momentum_source (driven E dd) psi = dx (e_mesh E) (fun p => dot2 (given2 (d_msource dd) p) (vv psi p))).
  { intros dd psi. unfold momentum_source. cbn [driven e_msource]. destruct (d_msource dd) as [dg|]; cbn [given2]; [reflexivity|].
    symmetry. apply integral_zero. intros p _. unfold dot2. cbn. ring. }
  intros psi. rewrite !G. apply integral_mix. intros p _. destruct HD as (_ & _ & _ & H & _). rewrite (H p).
  generalize (given2 (d_msource d1) p) (given2 (d_msource d2) p). intros [] []. pt.
Qed.
Lemma vsource_mix : forall phi, continuity_source Em phi = a * continuity_source E1 phi + b * continuity_source E2 phi.
Proof.
  assert (G : forall dd phi, continuity_source (driven E dd) phi = dx (e_mesh E) (fun p => given (d_vsource dd) p * s_v phi p)).
  { intros dd phi. unfold continuity_source. cbn [driven e_vsource]. destruct (d_vsource dd) as [dg|]; cbn [given]; [reflexivity|].
    symmetry. apply integral_zero. intros p _. ring. }
  intros phi. rewrite !G. apply integral_mix. intros p _. destruct HD as (_ & _ & _ & _ & H). rewrite (H p). ring.
Qed.

Lemma momentum_linear : forall dd psi u e uo eo, momentum_residual (driven E dd) psi u e uo eo
  = Some (pressure_gradient (driven E dd) psi u e eo + viscosity (driven E dd) psi u e eo + coriolis (driven E dd) psi u
          + wind (driven E dd) psi eo + atmospheric (driven E dd) psi + linear_drag (driven E dd) psi u + momentum_source (driven E dd) psi).
Proof.
  intros dd psi u e uo eo. destruct HL as (L1 & _ & L3 & L4 & L5 & L6 & L7 & L8).
  unfold momentum_residual, quadratic_drag, drag_coefficient. cbn [driven e_manning e_quad e_nikuradse]. rewrite L3, L4, L5.
  unfold advection. cbn [driven e_nonlinear]. rewrite L1. unfold bottom_drag_3d, turbine_drag. cbn [driven e_drag3d e_farms]. rewrite L7, L8.
  cbn [fold_right]. replace (boundary_drag (driven E dd) psi u uo) with 0; [f_equal; ring|].
  unfold boundary_drag, ds. rewrite integral_zero; [ring|]. intros x _. cbn [driven e_drag_b]. rewrite L6. reflexivity.
Qed.

Variable W : @space V F B.
Lemma comb_mix : forall n (c e : nat -> R) (f : nat -> sfield), comb n (mix a b c e) f = ms (comb n c f) (comb n e f).
Proof. intros n c e f. exact (tracer_mix a b (mk_tspace n f) c e). Qed.
Lemma eta_mix : forall u v, eta_of W (mix a b u v) = ms (eta_of W u) (eta_of W v).
Proof. intros u v. unfold eta_of. rewrite <- comb_mix. reflexivity. Qed.
Lemma uv_mix : forall u v, uv_of W (mix a b u v) = mix_v (uv_of W u) (uv_of W v).
Proof. intros u v. unfold uv_of, mix_v. cbn [v_x v_y]. rewrite <- !comb_mix. reflexivity. Qed.

Lemma swe_mix : forall dh dh1 dh2 u v w w1 w2 x,
  (e_u_jump E = false -> forall p, dh (mix a b u v) w p = a * dh1 u w1 p + b * dh2 v w2 p) ->
  swe_vector W Em dh (mix a b u v) w x = a * swe_vector W E1 dh1 u w1 x + b * swe_vector W E2 dh2 v w2 x.
Proof.
  intros dh dh1 dh2 u v w w1 w2 x Hdh. unfold swe_vector. destruct x as [j|i].
  - destruct (Nat.ltb j (n_uv W)); [|ring]. rewrite !momentum_linear, uv_mix, eta_mix.
    rewrite (pressure_mix _ _ _ _ _ _ (eta_of W w1) (eta_of W w2)), (viscosity_mix _ _ _ _ _ _ (eta_of W w1) (eta_of W w2)),
      (wind_mix _ _ (eta_of W w1) (eta_of W w2)), coriolis_mix, linear_drag_mix, atmospheric_mix, msource_mix. ring.
  - destruct (Nat.ltb i (n_eta W)); [|ring]. unfold continuity_residual. rewrite uv_mix, eta_mix, vsource_mix.
    rewrite (hu_div_mix _ _ _ _ _ _ (uv_of W w1) (uv_of W w2) _ (eta_of W w1) (eta_of W w2) _ (dh1 u w1) (dh2 v w2)); [ring|].
    exact Hdh.
Qed.

Lemma swe_mass_mix : forall M u v x,
  swe_mass W M (fun _ _ => 0) (mix a b u v) x = a * swe_mass W M (fun _ _ => 0) u x + b * swe_mass W M (fun _ _ => 0) v x.
Proof.
  intros M u v x. unfold swe_mass. destruct x as [j|i].
  - destruct (Nat.ltb j (n_uv W)); [|reflexivity]. rewrite uv_mix. apply integral_mix. pt.
  - destruct (Nat.ltb i (n_eta W)); [|reflexivity]. rewrite eta_mix.
    assert (Z : dx M (fun p => 0 * s_v (phi W i) p) = 0) by (apply integral_zero; intros; ring). rewrite !Z.
    match goal with |- ?x + 0 = a * (?x1 + 0) + b * (?x2 + 0) => enough (x = a * x1 + b * x2) as -> by ring end.
    apply integral_mix. pt.
Qed.
End Swe.
