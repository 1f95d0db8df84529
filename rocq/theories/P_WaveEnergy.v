(** C84: the energy of linear waves over whole runs. *)
From Coq Require Import Reals List String Bool Arith Lia Lra FunctionalExtensionality.
From Verif Require Import Forms_Model Forms_Spec Forms_Proofs P_SWE
  RK_Model RK_Spec RK_Proofs RK_Proofs4 TimeInt_Model TimeInt_Spec TimeInt_Proofs P_RungeKutta P_TimeInt
  Cfl_Model Stable_Spec P_Energy Galerkin_Model Galerkin_Proofs P_Galerkin WaveEnergy_Spec WaveEnergy_Proofs.
Import ListNotations.
Open Scope R_scope.

Lemma Sum_null : forall n (c : nat -> R), Sum n (fun j => c j * 0) = 0.
Proof.
  intros n c. unfold Sum. induction (seq 0 n) as [|i l IH]; cbn [map fold_right]; [reflexivity|].
  rewrite IH. ring.
Qed.

Lemma diagonal_nonneg : forall name T c, In (name, T, c) implicit_schemes -> name <> "DIRK33"%string ->
  forall i, (i < ns T)%nat -> 0 <= ta T i i.
Proof.
  intros name T c Hin Hname.
  assert (G2 : 0 <= gamma22).
  { unfold gamma22. assert (sqrt 2 <= 2).
    { replace 2 with (sqrt (2 * 2)) at 2 by (rewrite sqrt_square; lra). apply sqrt_le_1; lra. } lra. }
  assert (G3 : 0 <= gamma23) by (unfold gamma23; pose proof (sqrt_pos 3); lra).
  cbn [In implicit_schemes] in Hin.
  repeat (destruct Hin as [Hin|Hin]; [apply (f_equal (fun p => fst (fst p))) in Hin as En; apply (f_equal (fun p => snd (fst p))) in Hin;
    cbn [fst snd] in Hin, En; subst T|]); [..|contradiction].
  6:{ subst name. contradiction Hname. reflexivity. }
  all: intros i Hi; cbn in Hi; repeat (destruct i as [|i]; [cbn -[gamma22 gamma23]; try lra|try (exfalso; lia)]).
Qed.

Section Waves.
Context {V F B Val Bd : Type}.
Local Notation sfield := (sfield V F B).
Local Notation vfield := (vfield V F B).
Variable W : @space V F B.
Variable E : swe_env V F B.
Notation M := (e_mesh E).
Notation g := (e_g E).
Variable h : R.
Variable dh : (dof -> R) -> (dof -> R) -> V -> R.
Notation "'U' u" := (uv_of W u) (at level 9, u at level 9).
Notation "'H' u" := (eta_of W u) (at level 9, u at level 9).
Notation energy := (mech_energy W M g h).
Notation mass := (swe_mass W M (fun _ _ => 0)).

(** product of two states whose square is twice the energy *)
Definition eprod (u v : dof -> R) : R :=
  dx M (fun p => h * dot2 (vv (U u) p) (vv (U v) p) + g * (s_v (H u) p * s_v (H v) p)).

Lemma energy_prod : forall u, energy u = 1/2 * eprod u u.
Proof. intro u. unfold mech_energy, eprod, dx. rewrite <- integral_scal. apply integral_ext. intros p _. field. Qed.

Lemma eprod_sym : forall u v, eprod u v = eprod v u.
Proof. intros. unfold eprod, dx. apply integral_ext. intros p _. unfold dot2. ring. Qed.

Lemma eprod_lin : forall u k v w, eprod (plus_k u k v) w = eprod u w + k * eprod v w.
Proof.
  intros. unfold eprod. rewrite uv_plus, eta_plus. apply integral_lin. intros p _.
  unfold dot2, vv; cbn [add_v scale_v add_s scale_s v_x v_y s_v fst snd]. ring.
Qed.

(** work done by the rows of a residual along a state *)
Definition row_work (v r : dof -> R) : R :=
  h * rsum (n_uv W) (fun j => v (UV j) * r (UV j)) + g * rsum (n_eta W) (fun i => v (ETA i) * r (ETA i)).

Lemma row_work_lin : forall v r k s, row_work v (fun x => r x + k * s x) = row_work v r + k * row_work v s.
Proof.
  intros. unfold row_work.
  rewrite (rsum_ext (n_uv W) _ (fun j => v (UV j) * r (UV j) + k * (v (UV j) * s (UV j)))) by (intros; ring).
  rewrite (rsum_ext (n_eta W) _ (fun i => v (ETA i) * r (ETA i) + k * (v (ETA i) * s (ETA i)))) by (intros; ring).
  rewrite !rsum_plus, !rsum_scal. ring.
Qed.

Lemma row_work_ext : forall v r s, (forall x, r x = s x) -> row_work v r = row_work v s.
Proof.
  intros v r s Hx. unfold row_work. f_equal; f_equal; apply rsum_ext; intros i _; rewrite Hx; reflexivity.
Qed.

Lemma row_work_zero : forall v, row_work v (fun _ => 0) = 0.
Proof.
  intro v. rewrite (row_work_ext v (fun _ => 0) (fun x => 0 + (-1) * 0)) by (intro; ring).
  rewrite (row_work_lin v (fun _ => 0) (-1) (fun _ => 0)). ring.
Qed.

Lemma work_mass : forall v u, row_work v (mass u) = eprod u v.
Proof.
  intros v u. unfold row_work.
  transitivity (h * dx M (fun p => dot2 (vv (U u) p) (vv (U v) p)) + g * dx M (fun p => s_v (H u) p * s_v (H v) p)).
  - f_equal; f_equal.
    + rewrite (lin_v_comb W (fun q => dx M (fun p => dot2 (vv (U u) p) (vv q p)))).
      * apply rsum_ext. intros j Hj. cbn [swe_mass]. apply Nat.ltb_lt in Hj. rewrite Hj. reflexivity.
      * split.
        -- apply integral_zero. intros p _. unfold dot2, vv; cbn. ring.
        -- intros a k b. apply integral_lin. intros p _. unfold dot2, vv; cbn [add_v scale_v add_s scale_s v_x v_y s_v fst snd]. ring.
    + change (H v) with (comb (n_eta W) (fun i => v (ETA i)) (phi W)). rewrite (lin_comb _ (lin_mass M (fun p => s_v (H u) p))).
      apply rsum_ext. intros i Hi. cbn [swe_mass]. apply Nat.ltb_lt in Hi. rewrite Hi.
      rewrite (dx_zero M (fun p => 0 * _)); [ring|]. intros. ring.
  - unfold eprod, dx. rewrite <- !integral_scal, <- integral_plus. reflexivity.
Qed.

(** the equations, tested with the state [v] *)
Definition form (v u w : dof -> R) : R :=
  h * (pressure_gradient E (U v) (U u) (H u) (H w) + viscosity E (U v) (U u) (H u) (H w)
       + coriolis E (U v) (U u) + qdrag E (U v) (U u) (U w) (H w) + linear_drag E (U v) (U u)
       + boundary_drag E (U v) (U u) (U w) + turbine_drag E (U v) (U u) (U w) (H w))
  + g * hu_div E (H v) (U u) (H u) (U w) (H w) (dh u w).

Lemma drag_some : one_drag E -> forall eta, drag_coefficient E eta <> None.
Proof.
  intros (H1 & H2) eta. unfold drag_coefficient.
  destruct (e_manning E), (e_quad E), (e_nikuradse E); try discriminate;
  destruct H1 as [H1|H1]; try discriminate H1; destruct H2 as [H2|[H2 H3]]; discriminate.
Qed.

Lemma work_form : forall v u w, free_waves E h -> one_drag E -> row_work v (swe_vector W E dh u w) = form v u w.
Proof.
  intros v u w (Hn & Hg & Hh & Hdep & Hcl & (F1 & F2 & F3 & F4 & F5) & Hj & Hgd) H1.
  unfold row_work, form. f_equal; f_equal.
  - match goal with |- _ = ?R => 
      rewrite (rsum_ext (n_uv W) _ (fun j => v (UV j) *
        (pressure_gradient E (psi W j) (U u) (H u) (H w) + viscosity E (psi W j) (U u) (H u) (H w)
       + coriolis E (psi W j) (U u) + qdrag E (psi W j) (U u) (U w) (H w) + linear_drag E (psi W j) (U u)
       + boundary_drag E (psi W j) (U u) (U w) + turbine_drag E (psi W j) (U u) (U w) (H w)))) end.
    + symmetry. apply (lin_v_comb W (fun q => pressure_gradient E q (U u) (H u) (H w) + viscosity E q (U u) (H u) (H w)
       + coriolis E q (U u) + qdrag E q (U u) (U w) (H w) + linear_drag E q (U u)
       + boundary_drag E q (U u) (U w) + turbine_drag E q (U u) (U w) (H w))).
      apply pair_v. repeat apply pair_plus.
      * apply tp_pressure.
      * apply tp_viscosity.
      * apply tp_coriolis.
      * apply tp_qdrag.
      * apply tp_linear_drag.
      * apply tp_boundary_drag.
      * apply tp_turbine.
    + intros j Hjn. f_equal. cbn [swe_vector]. apply Nat.ltb_lt in Hjn. rewrite Hjn.
      unfold momentum_residual, qdrag.
      destruct (quadratic_drag E (psi W j) (U u) (U w) (H w)) as [qd|] eqn:Eq.
      2:{ exfalso. unfold quadratic_drag in Eq. pose proof (drag_some H1 (H w)) as Hs.
          destruct (drag_coefficient E (H w)) as [[cd|]|]; congruence. }
      assert (advection E (psi W j) (U u) (H u) (U w) (H w) = 0) as -> by (unfold advection; rewrite Hn; reflexivity).
      assert (wind E (psi W j) (H w) = 0) as ->.
      { unfold wind. destruct (e_wind E) as [t|]; [|reflexivity]. apply dx_zero. intros p _.
        rewrite (F1 t eq_refl p), dot2_zero_l. unfold Rdiv; ring. }
      assert (atmospheric E (psi W j) = 0) as ->.
      { unfold atmospheric. destruct (e_patm_grad E) as [t|]; [|reflexivity]. rewrite dx_zero; [ring|]. intros p _.
        rewrite (F2 t eq_refl p), dot2_zero_l. unfold Rdiv; ring. }
      assert (momentum_source E (psi W j) = 0) as ->.
      { unfold momentum_source. destruct (e_msource E) as [t|]; [|reflexivity]. apply dx_zero. intros p _.
        rewrite (F3 t eq_refl p), dot2_zero_l. ring. }
      assert (bottom_drag_3d E (psi W j) (H w) = 0) as ->.
      { unfold bottom_drag_3d. destruct (e_drag3d E) as [[cd ub]|]; [|reflexivity]. rewrite dx_zero; [ring|]. intros p _.
        rewrite (F5 cd ub eq_refl p). unfold scal2, dot2; cbn [fst snd]. ring. }
      ring.
  - change (H v) with (comb (n_eta W) (fun i => v (ETA i)) (phi W)).
    rewrite (lin_comb (fun q => hu_div E q (U u) (H u) (U w) (H w) (dh u w))).
    + apply rsum_ext. intros i Hi. f_equal. cbn [swe_vector]. apply Nat.ltb_lt in Hi. rewrite Hi.
      unfold continuity_residual.
      assert (continuity_source E (phi W i) = 0) as ->; [|ring].
      unfold continuity_source. destruct (e_vsource E) as [s|]; [|reflexivity]. apply dx_zero. intros p _.
      rewrite (F4 s eq_refl p). ring.
    + destruct (lin_continuity E (U u) (H u) (U w) (H w) (dh u w)) as (L0 & L1).
      assert (S0 : forall q, continuity_source E q = 0).
      { intro q. unfold continuity_source. destruct (e_vsource E) as [s|]; [|reflexivity]. apply dx_zero. intros p _.
        rewrite (F4 s eq_refl p). ring. }
      unfold continuity_residual in L0, L1. split.
      * rewrite S0 in L0. lra.
      * intros p k q. specialize (L1 p k q). rewrite !S0 in L1. lra.
Qed.

(** [hu_div] of a jump space does not use the divergence *)
Lemma hu_div_dh : forall q u e uo eo d d', e_u_jump E = true -> hu_div E q u e uo eo d = hu_div E q u e uo eo d'.
Proof. intros q u e uo eo d d0 Hj. unfold hu_div. rewrite Hj. reflexivity. Qed.

Lemma visc_eta : all_closed E -> e_grad_depth E = false -> forall p u e e' eo eo',
  viscosity E p u e eo = viscosity E p u e' eo'.
Proof.
  intros Hc Hg p u e e' eo eo'. unfold viscosity. destruct (e_nu E) as [nu|]; [|reflexivity].
  rewrite Hg. destruct (e_u_jump E); [|reflexivity]. do 4 f_equal.
  apply integral_ext. intros b _. rewrite (Hc (m_marker M b)). reflexivity.
Qed.

Lemma form_lin : free_waves E h -> forall v u k u2 w,
  form v (plus_k u k u2) w = form v u w + k * form v u2 w.
Proof.
  intros (Hn & Hg & Hh & Hdep & Hcl & _ & Hj & Hgd) v u k u2 w. unfold form.
  rewrite uv_plus, eta_plus.
  rewrite (hu_div_dh (H v) (U u2) (H u2) (U w) (H w) (dh u2 w) (dh (plus_k u k u2) w) Hj).
  rewrite (hu_div_dh (H v) (U u) (H u) (U w) (H w) (dh u w) (dh (plus_k u k u2) w) Hj).
  set (d := dh _ w).
  rewrite (proj2 (up_pressure E Hcl (U v) (H w))).
  rewrite (visc_eta Hcl Hgd (U v) _ (add_s (H u) (scale_s k (H u2))) (H w) _ (H w)).
  rewrite (visc_eta Hcl Hgd (U v) (U u) (H u) (H w) _ (H w)).
  rewrite (visc_eta Hcl Hgd (U v) (U u2) (H u2) (H w) _ (H w)).
  rewrite (proj2 (up_viscosity E Hcl (U v) (H w) (H w)) _ (H w) k _ (H w)).
  rewrite (proj2 (up_coriolis E (U v)) _ (H w) k _ (H w)).
  rewrite (proj2 (up_qdrag E (U v) (U w) (H w)) _ (H w) k _ (H w)).
  rewrite (proj2 (up_linear_drag E (U v)) _ (H w) k _ (H w)).
  rewrite (proj2 (up_boundary_drag E (U v) (U w)) _ (H w) k _ (H w)).
  rewrite (proj2 (up_turbine E (U v) (U w) (H w)) _ (H w) k _ (H w)).
  rewrite (proj2 (up_hu_div E Hcl (H v) (U w) (H w) d Hj)).
  ring.
Qed.

Lemma form_lag : free_waves E h -> steady_drag E -> forall v u w w', form v u w = form v u w'.
Proof.
  intros (Hn & Hg & Hh & Hdep & Hcl & _ & Hj & Hgd) (D1 & D2 & D3 & D4 & D5) v u w w'. unfold form.
  assert (Hhv : forall e p, hv E e p = h) by (intros; apply Hdep).
  assert (Hhf : forall e f s, hf E e f s = h) by (intros; apply Hdep).
  assert (Hhb : forall e b, hb E e b = h) by (intros; apply Hdep).
  assert (A1 : pressure_gradient E (U v) (U u) (H u) (H w) = pressure_gradient E (U v) (U u) (H u) (H w')).
  { unfold pressure_gradient. destruct (e_eta_dg E).
    - assert (Q1 : dS M (fun f => (avg (s_f (H u) f) + sqrt (avg (hf E (H w) f) / g) * jump_vn M (U u) f) * jump_vn M (U v) f)
          = dS M (fun f => (avg (s_f (H u) f) + sqrt (avg (hf E (H w') f) / g) * jump_vn M (U u) f) * jump_vn M (U v) f)).
      { apply integral_ext. intros f _. unfold avg. rewrite !Hhf. reflexivity. }
      rewrite Q1. do 3 f_equal. apply integral_ext. intros b _. rewrite (Hcl (m_marker M b)), !Hhb. reflexivity.
    - do 3 f_equal. apply integral_ext. intros b _. rewrite (Hcl (m_marker M b)). reflexivity. }
  rewrite A1, (visc_eta Hcl Hgd (U v) (U u) (H u) (H u) (H w) (H w')).
  assert (A2 : qdrag E (U v) (U u) (U w) (H w) = qdrag E (U v) (U u) (U w') (H w')).
  { unfold qdrag, quadratic_drag, drag_coefficient. rewrite D1, D2, D3. reflexivity. }
  assert (A3 : boundary_drag E (U v) (U u) (U w) = boundary_drag E (U v) (U u) (U w')).
  { unfold boundary_drag. f_equal. apply integral_ext. intros b _. rewrite D4. reflexivity. }
  assert (A4 : turbine_drag E (U v) (U u) (U w) (H w) = turbine_drag E (U v) (U u) (U w') (H w')).
  { unfold turbine_drag. rewrite D5. reflexivity. }
  rewrite A2, A3, A4. f_equal. f_equal.
  unfold hu_div. rewrite Hj.
  assert (Q1 : dx M (fun p => dot2 (s_gv (H v) p) (scal2 (hv E (H w) p) (vv (U u) p)))
             = dx M (fun p => dot2 (s_gv (H v) p) (scal2 (hv E (H w') p) (vv (U u) p)))).
  { apply integral_ext. intros p _. rewrite !Hhv. reflexivity. }
  rewrite Q1.
  rewrite !(ds_zero M (fun b => match e_bnd E (m_marker M b) with Open e => _ | Closed => _ end)).
  2,3: intros b _; rewrite (Hcl (m_marker M b)); reflexivity.
  f_equal. f_equal. f_equal.
  destruct (e_eta_dg E); [|reflexivity]. apply integral_ext. intros f _. unfold avg. rewrite !Hhf. reflexivity.
Qed.

(** Energy lost per unit time in the state [u] with the drag computed for the
    velocity of [w]: at the jumps between the cells and at the walls (the
    Riemann fluxes), by viscosity, bottom drag, linear drag, drag of the walls
    and turbines. *)
Definition flux_loss (u : dof -> R) : R :=
  if e_eta_dg E then
    g * h * (dS M (fun f => sqrt (h / g) * (jump_vn M (U u) f * jump_vn M (U u) f)
                            + sqrt (g / h) * dot2 (jump_n M (H u) f) (jump_n M (H u) f))
             + ds M (fun b => sqrt (h / g) * (unb M (U u) b * unb M (U u) b)))
  else 0.
Definition drag_work (u w : dof -> R) : R :=
  qdrag E (U u) (U u) (U w) (H w) + linear_drag E (U u) (U u)
  + boundary_drag E (U u) (U u) (U w) + turbine_drag E (U u) (U u) (U w) (H w).
Definition loss (u w : dof -> R) : R :=
  flux_loss u - h * (viscosity E (U u) (U u) (H u) (H w) + drag_work u w).

Lemma test_scale : forall (f : vfield -> R) k q, lin_v f -> f (scale_v k q) = k * f q.
Proof.
  intros f k q (F0 & F1). transitivity (f (add_v zero_v (scale_v k q))).
  - f_equal. destruct q as [[a1 a2 a3 a4 a5 a6] [b1 b2 b3 b4 b5 b6]].
    unfold add_v, scale_v, zero_v, const_v; cbn [v_x v_y].
    f_equal; apply add_s_ext; intros; cbn [add_s scale_s const_s s_v s_gv s_f s_gf s_b s_gb];
    unfold add2, scal2; cbn [fst snd]; try match goal with |- (_, _) = (_, _) => f_equal end; ring.
  - rewrite F1, F0. ring.
Qed.
Lemma test_scale_s : forall (f : sfield -> R) k q, lin_test f -> f (scale_s k q) = k * f q.
Proof.
  intros f k q (F0 & F1). transitivity (f (add_s (const_s 0) (scale_s k q))).
  - f_equal. apply add_s_ext; intros; cbn [add_s scale_s const_s s_v s_gv s_f s_gf s_b s_gb];
    unfold add2, scal2; cbn [fst snd]; try match goal with |- (_, _) = (_, _) => f_equal end; ring.
  - rewrite F1, F0. ring.
Qed.

Lemma hu_div_test : e_u_jump E = true -> all_closed E -> forall u e uo eo d, lin_test (fun q => hu_div E q u e uo eo d).
Proof.
  intros Hj Hcl u e uo eo d. unfold hu_div. rewrite Hj. apply lin_opp. apply lin_plus; [apply lin_plus|].
  - apply lin_opp, lin_integral. intro p. split; [|intros]; unfold dot2, scal2, add2; cbn; ring.
  - destruct (e_eta_dg E); [|apply lin_zero_form]. apply lin_integral. intro f. cbv zeta.
    split; [|intros]; unfold jump_n, dot2, scal2, add2; cbn [const_s add_s scale_s s_f fst snd]; ring.
  - apply lin_integral. intro b. rewrite (Hcl (m_marker M b)). apply lin_zero_form.
Qed.

Lemma form_self : free_waves E h -> (e_eta_dg E = true -> positive_weights M /\ gauss_space W M) ->
  forall u w, form u u w = - loss u w.
Proof.
  intros (Hn & Hg & Hh & Hdep & Hcl & _ & Hj & Hgd) Hdg u w. unfold form, loss, drag_work.
  rewrite C49_coriolis_no_work.
  assert (Hw : h * pressure_gradient E (U u) (U u) (H u) (H w) + g * hu_div E (H u) (U u) (H u) (U w) (H w) (dh u w)
               = - flux_loss u).
  2:{ lra. }
  unfold flux_loss. destruct (e_eta_dg E) eqn:Ed.
  - destruct (Hdg eq_refl) as (Hpw & Hga).
    destruct (C49_wave_energy E (U u) (H u) (U w) (H w) (dh u w) h Hpw Hg Hh Ed Hj Hcl Hdep (Hga u)) as (Q & _).
    rewrite (test_scale (fun q => pressure_gradient E q (U u) (H u) (H w)) h (U u)) in Q
      by (apply pair_v, tp_pressure).
    rewrite (test_scale_s (fun q => hu_div E q (U u) (H u) (U w) (H w) (dh u w)) g (H u)) in Q
      by (apply hu_div_test; assumption).
    exact Q.
  - unfold pressure_gradient, hu_div. rewrite Ed, Hj.
    rewrite (ds_zero M (fun b => match e_bnd E (m_marker M b) with | Closed => 0
        | Open e => hu_flux_b E (U u) (H u) (U w) (H w) e b * s_b (H u) b end)).
    2:{ intros b _. rewrite (Hcl (m_marker M b)). reflexivity. }
    rewrite (ds_zero M).
    2:{ intros b _. rewrite (Hcl (m_marker M b)). reflexivity. }
    assert (dx M (fun p => dot2 (s_gv (H u) p) (scal2 (hv E (H w) p) (vv (U u) p)))
            = h * dx M (fun p => dot2 (s_gv (H u) p) (vv (U u) p))) as ->.
    { unfold dx. rewrite <- integral_scal. apply integral_ext. intros p _. unfold hv. rewrite Hdep.
      unfold dot2, scal2; cbn [fst snd]. ring. }
    ring.
Qed.

(** None of the losses is a gain. *)
Theorem C84_losses : forall u w,
  free_waves E h -> positive_weights M -> unit_normals M -> passive_drag E -> proper_viscosity W E ->
  0 <= flux_loss u /\ viscosity E (U u) (U u) (H u) (H w) <= 0 /\ drag_work u w <= 0 /\ 0 <= loss u w.
Proof.
  intros u w (Hn & Hg & Hh & Hdep & Hcl & _ & Hj & Hgd) Hpw Hun (P1 & P2 & P3 & P4) Hv.
  assert (A : 0 <= flux_loss u).
  { unfold flux_loss. destruct (e_eta_dg E); [|lra]. apply Rmult_le_pos; [nra|].
    apply Rplus_le_le_0_compat; (apply integral_nonneg; [first [apply (pf E), Hpw|apply (pb E), Hpw]|]); intros.
    - apply Rplus_le_le_0_compat; apply Rmult_le_pos; try apply sqrt_pos; [|apply dot2_self].
      apply Rle_0_sqr.
    - apply Rmult_le_pos; [apply sqrt_pos|apply Rle_0_sqr]. }
  assert (C : viscosity E (U u) (U u) (H u) (H w) <= 0).
  { destruct (e_nu E) as [nu|] eqn:En; [|unfold viscosity; rewrite En; lra].
    destruct (Hv nu En) as (V1 & V2 & V3 & V4 & V5).
    apply (C49_viscosity_dissipates E nu); try assumption. intros _. apply V5. }
  assert (D : drag_work u w <= 0).
  { unfold drag_work.
    assert (D1 : qdrag E (U u) (U u) (U w) (H w) <= 0).
    { unfold qdrag. destruct (quadratic_drag E (U u) (U u) (U w) (H w)) as [r|] eqn:Eq; [|lra].
      apply (C49_quadratic_drag_dissipates E (U u) (U w) (H w) r); try assumption; [lra|].
      intros p _. unfold hv. rewrite Hdep. exact Hh. }
    pose proof (C49_linear_drag_dissipates E (U u) Hpw P2) as D2.
    pose proof (C49_boundary_drag_dissipates E (U u) (U w) Hpw Hun P3) as D3.
    assert (D4 : turbine_drag E (U u) (U u) (U w) (H w) <= 0).
    { apply C49_turbine_drag_dissipates. intros pts wt den ct Hin. destruct (P4 pts wt den ct Hin) as (Q1 & Q2 & Q3).
      repeat split; try assumption. intros p _. unfold hv. rewrite Hdep. exact Hh. }
    lra. }
  split; [exact A|]. split; [exact C|]. split; [exact D|]. unfold loss.
  assert (h * (viscosity E (U u) (U u) (H u) (H w) + drag_work u w) <= 0); [|lra].
  rewrite <- (Rmult_0_r h). apply Rmult_le_compat_l; lra.
Qed.

Lemma energy_pos : forall u, 0 < g -> 0 < h -> positive_weights M -> 0 <= energy u.
Proof.
  intros u Hg Hh Hpw. apply integral_nonneg; [apply (pw E), Hpw|]. intros p _.
  pose proof (dot2_self (vv (U u) p)). pose proof (Rle_0_sqr (s_v (H u) p)). unfold Rsqr in *.
  apply Rplus_le_le_0_compat; apply Rmult_le_pos; try lra; apply Rmult_le_pos; lra.
Qed.

(** ** Solvability *)
Definition unit_at (x : dof) : dof -> R := fun y =>
  match x, y with
  | UV i, UV j => if Nat.eqb i j then 1 else 0
  | ETA i, ETA j => if Nat.eqb i j then 1 else 0
  | _, _ => 0
  end.

Lemma rsum_zero : forall n (f : nat -> R), (forall i, (i < n)%nat -> f i = 0) -> rsum n f = 0.
Proof.
  induction n as [|n IH]; intros f Hz; cbn [rsum]; [reflexivity|].
  rewrite IH by (intros; apply Hz; lia). rewrite Hz by lia. ring.
Qed.

Lemma rsum_pick : forall n i (f : nat -> R), (i < n)%nat -> rsum n (fun j => (if Nat.eqb i j then 1 else 0) * f j) = f i.
Proof.
  induction n as [|n IH]; intros i f Hi; [lia|]. cbn [rsum]. destruct (Nat.eq_dec i n) as [->|Hne].
  - rewrite Nat.eqb_refl. rewrite rsum_zero; [ring|]. intros j Hj.
    replace (Nat.eqb n j) with false by (symmetry; apply Nat.eqb_neq; lia). ring.
  - rewrite IH by lia. replace (Nat.eqb i n) with false by (symmetry; apply Nat.eqb_neq; lia). ring.
Qed.

Lemma work_unit_uv : forall j r, (j < n_uv W)%nat -> row_work (unit_at (UV j)) r = h * r (UV j).
Proof.
  intros j r Hj. unfold row_work, unit_at. rewrite (rsum_pick (n_uv W) j (fun i => r (UV i)) Hj).
  rewrite rsum_zero; [ring|]. intros; ring.
Qed.
Lemma work_unit_eta : forall i r, (i < n_eta W)%nat -> row_work (unit_at (ETA i)) r = g * r (ETA i).
Proof.
  intros j r Hj. unfold row_work, unit_at. rewrite (rsum_pick (n_eta W) j (fun i => r (ETA i)) Hj).
  rewrite rsum_zero; [ring|]. intros; ring.
Qed.

(** the assembled rows are linear in the state *)
Lemma rows_from_work : free_waves E h -> forall r r' : dof -> R,
  (forall x, ~ in_space W x -> r x = r' x) -> (forall y, row_work y r = row_work y r') -> forall x, r x = r' x.
Proof.
  intros (_ & Hg & Hh & _) r r' Ho Hw x. destruct (in_space_dec W x) as [Hx|Hx]; [|apply Ho, Hx].
  specialize (Hw (unit_at x)). destruct x as [j|i]; cbn [in_space] in Hx.
  - rewrite !work_unit_uv in Hw by exact Hx. apply (Rmult_eq_reg_l h); [exact Hw|lra].
  - rewrite !work_unit_eta in Hw by exact Hx. apply (Rmult_eq_reg_l g); [exact Hw|lra].
Qed.

Lemma rows_out : forall u w x, ~ in_space W x -> swe_vector W E dh u w x = 0.
Proof.
  intros u w [j|i] Hx; cbn [in_space swe_vector] in *.
  - destruct (Nat.ltb_spec j (n_uv W)); [contradiction|reflexivity].
  - destruct (Nat.ltb_spec i (n_eta W)); [contradiction|reflexivity].
Qed.

Lemma rows_linear : free_waves E h -> one_drag E -> forall u k v w x,
  swe_vector W E dh (plus_k u k v) w x = swe_vector W E dh u w x + k * swe_vector W E dh v w x.
Proof.
  intros Hf H1 u k v w.
  apply (rows_from_work Hf (swe_vector W E dh (plus_k u k v) w) (fun x => swe_vector W E dh u w x + k * swe_vector W E dh v w x)).
  - intros x Hx. rewrite !rows_out by exact Hx. ring.
  - intro y. rewrite row_work_lin, !work_form by assumption. apply form_lin. exact Hf.
Qed.

Lemma rows_lag : free_waves E h -> steady_drag E -> forall u w w' x,
  swe_vector W E dh u w x = swe_vector W E dh u w' x.
Proof.
  intros Hf Hd u w w'. pose proof Hd as (D1 & D2 & D3 & _).
  assert (H1 : one_drag E) by (split; left; assumption).
  apply (rows_from_work Hf).
  - intros x Hx. rewrite !rows_out by exact Hx. reflexivity.
  - intro y. rewrite !work_form by assumption. apply form_lag; assumption.
Qed.

Lemma rows_local : free_waves E h -> forall u v w, (forall x, in_space W x -> u x = v x) ->
  forall x, swe_vector W E dh u w x = swe_vector W E dh v w x.
Proof.
  intros (_ & _ & _ & _ & _ & _ & Hj & _) u v w Hx [j|i]; cbn [swe_vector];
  rewrite (uv_ext_in W u v Hx), (eta_ext_in W u v Hx); [reflexivity|].
  destruct (Nat.ltb i (n_eta W)); [|reflexivity]. unfold continuity_residual. f_equal. apply hu_div_dh, Hj.
Qed.

Lemma mass_linear : forall u k v x, mass (plus_k u k v) x = mass u x + k * mass v x.
Proof.
  intros u k v [j|i]; cbn [swe_mass]; rewrite ?uv_plus, ?eta_plus.
  - destruct (Nat.ltb j (n_uv W)); [|reflexivity]. apply integral_lin. intros p _.
    unfold dot2, vv; cbn [add_v scale_v add_s scale_s v_x v_y s_v fst snd]. ring.
  - destruct (Nat.ltb i (n_eta W)); [|reflexivity].
    rewrite !(dx_zero M (fun p => 0 * _)) by (intros; ring). rewrite !Rplus_0_r. apply integral_lin. intros p _.
    cbn [add_s scale_s s_v]. ring.
Qed.

Lemma mass_out : forall u x, ~ in_space W x -> mass u x = u x.
Proof.
  intros u [j|i] Hx; cbn [in_space swe_mass] in *.
  - destruct (Nat.ltb_spec j (n_uv W)); [contradiction|reflexivity].
  - destruct (Nat.ltb_spec i (n_eta W)); [contradiction|reflexivity].
Qed.
Lemma mass_local : forall u v, (forall x, in_space W x -> u x = v x) -> forall x, in_space W x -> mass u x = mass v x.
Proof.
  intros u v Hx [j|i] Hi; cbn [in_space swe_mass] in *; apply Nat.ltb_lt in Hi; rewrite Hi;
  rewrite ?(uv_ext_in W u v Hx), ?(eta_ext_in W u v Hx); reflexivity.
Qed.

(** the mass matrix plus a positive multiple of the loss is invertible *)
Lemma system_onto : forall tau w b,
  free_waves E h -> one_drag E -> (e_eta_dg E = true -> positive_weights M /\ gauss_space W M) ->
  independent W M g h -> (forall u, 0 <= energy u) -> (forall u w, 0 <= loss u w) -> 0 <= tau ->
  exists u, forall x, mass u x + (- tau) * swe_vector W E dh u w x = b x.
Proof.
  intros tau w b Hf H1 Hdg Hin He Hl Ht.
  apply (dof_onto W (fun u x => mass u x + (- tau) * swe_vector W E dh u w x)).
  - intros u k v x. rewrite mass_linear, rows_linear by assumption. ring.
  - intros u v Huv x Hx. rewrite (mass_local u v Huv x Hx), (rows_local Hf u v w Huv x). reflexivity.
  - intros u x Hx. rewrite mass_out, rows_out by exact Hx. ring.
  - intros u Hu. apply Hin.
    assert (Q : row_work u (fun x => mass u x + (- tau) * swe_vector W E dh u w x) = 0).
    { unfold row_work. rewrite !rsum_zero; [ring| |]; intros i Hi; rewrite Hu by exact Hi; ring. }
    rewrite row_work_lin, work_mass, work_form, form_self in Q by assumption.
    specialize (He u). specialize (Hl u w). rewrite energy_prod in *.
    assert (0 <= tau * loss u w) by (apply Rmult_le_pos; assumption). lra.
Qed.

(** ** The theta scheme *)
Variable keys : list string.
Variable kind : string -> ckind.
Variable solve : ((dof -> R) -> dof -> R) -> (dof -> R) -> dof -> R.
Variable dt : R.
Variable uf : option (@forcing Val Bd).
Variable theta : R.
Variable semi : bool.
Notation Rs := (Res W dh (fun (_ _ : string -> option Val) (_ : Bd) => E)).
Notation step := (cn_advance keys kind Rs mass solve dt uf theta semi).

(** the state in which the equations are taken *)
Definition between (u u' : dof -> R) : dof -> R := fun x => u x + theta * (u' x - u x).

Lemma step_identity : forall u u' w,
  free_waves E h -> one_drag E -> (e_eta_dg E = true -> positive_weights M /\ gauss_space W M) ->
  theta_step mass (fun v => swe_vector W E dh v (if semi then u else v)) (fun v => swe_vector W E dh v v) dt theta u u' ->
  (semi = true \/ steady_drag E) -> w = (if semi then u else u') ->
  energy u' = energy u - dt * loss (between u u') w - (2 * theta - 1) * energy (plus_k u' (-1) u).
Proof.
  intros u u' w Hf H1 Hdg Hst Hs Ew.
  set (d := plus_k u' (-1) u).
  assert (Em : between u u' = plus_k u theta d).
  { apply functional_extensionality; intro x. unfold between, d, plus_k. ring. }
  assert (W1 : row_work (between u u') (fun x => mass u' x + (-1) * mass u x)
     = dt * form (between u u') (between u u') w).
  { rewrite (row_work_ext _ _ (fun x => (fun y => dt * theta * swe_vector W E dh u' w y) x + dt * (1 - theta) * swe_vector W E dh u u x)).
    2:{ intro x. specialize (Hst x). cbv beta in Hst. rewrite Ew. lra. }
    rewrite row_work_lin.
    rewrite (row_work_ext _ (fun y => dt * theta * swe_vector W E dh u' w y) (fun y => (fun _ => 0) y + dt * theta * swe_vector W E dh u' w y)) by (intro; ring).
    rewrite row_work_lin.
    rewrite row_work_zero.
    rewrite !work_form by assumption.
    assert (Hl : form (between u u') u u = form (between u u') u w).
    { destruct Hs as [Hs|Hs]; [rewrite Ew, Hs; reflexivity|apply form_lag; assumption]. }
    rewrite Hl.
    assert (Hb : form (between u u') (between u u') w
      = form (between u u') u w + theta * (form (between u u') u' w + (-1) * form (between u u') u w)).
    { rewrite Em at 2. rewrite form_lin by assumption. unfold d. rewrite form_lin by assumption. reflexivity. }
    rewrite Hb. ring. }
  rewrite row_work_lin, !work_mass in W1. rewrite form_self in W1 by assumption.
  rewrite !energy_prod.
  assert (Q1 : eprod u' (between u u') + (-1) * eprod u (between u u') = eprod d u + theta * eprod d d).
  { transitivity (eprod d (between u u')); [unfold d; rewrite eprod_lin; reflexivity|].
    rewrite Em, eprod_sym, eprod_lin. rewrite (eprod_sym u d). reflexivity. }
  assert (Q2 : eprod u' u' = eprod u u + 2 * eprod d u + eprod d d).
  { assert (Eu : u' = plus_k u 1 d).
    { apply functional_extensionality; intro x. unfold d, plus_k. ring. }
    rewrite Eu at 1 2. rewrite eprod_lin, (eprod_sym u), (eprod_sym d), !eprod_lin. rewrite (eprod_sym u d). ring. }
  fold d in W1. fold d. rewrite Q1 in W1. rewrite Q2. lra.
Qed.

Definition wave_setting : Prop :=
  free_waves E h /\ one_drag E /\ (e_eta_dg E = true -> positive_weights M /\ gauss_space W M).
(** drag computed from the old velocity (semi-implicit), or none that depends
    on the velocity *)
Definition lagged_drag : Prop := semi = true \/ steady_drag E.

Notation solvable_step := (solvable W M dh (fun (_ _ : string -> option Val) (_ : Bd) => E) kind (fun _ _ => 0) dt theta semi).

(** Every step has a solution. *)
Theorem C84_step_exists :
  wave_setting -> lagged_drag -> positive_weights M -> unit_normals M -> passive_drag E -> proper_viscosity W E ->
  independent W M g h -> 0 <= dt -> 0 <= theta -> forall c u, solvable_step c u.
Proof.
  intros (Hf & H1 & Hdg) Hl Hpw Hun Hpd Hpv Hin Hdt Hth c u.
  pose proof Hf as (_ & Hg & Hh & _).
  destruct (system_onto (dt * theta) u (fun x => mass u x + dt * (1 - theta) * swe_vector W E dh u u x)) as (u' & Hu');
    try assumption.
  - intro v. apply energy_pos; assumption.
  - intros v w. apply C84_losses; assumption.
  - apply Rmult_le_pos; assumption.
  - exists u'. intro x. specialize (Hu' x). unfold Res.
    assert (Q : swe_vector W E dh u' (if semi then u else u') x = swe_vector W E dh u' u x).
    { destruct Hl as [Hs|Hs]; [rewrite Hs; reflexivity|apply rows_lag; assumption]. }
    rewrite Q. lra.
Qed.

(** The energy budget of one step is exact: what is lost is the time step times
    the loss in the intermediate state, plus or minus a multiple of the energy
    of the change. *)
Theorem C84_theta_budget : forall t s,
  exact_solver solve -> wave_setting -> lagged_drag ->
  solvable_step (force_co uf (t + dt) (tco s)) (tsol s) ->
  let new := tsol (step t s) in
  energy new
  = energy (tsol s)
    - dt * loss (fun x => tsol s x + theta * (new x - tsol s x)) (if semi then tsol s else new)
    - (2 * theta - 1) * energy (fun x => new x - tsol s x).
Proof.
  intros t s Hs (Hf & H1 & Hdg) Hl Hex new.
  destruct (cn_advance_spec keys kind Rs mass solve dt uf theta semi t s Hs Hex) as [Q _].
  fold new in Q. clearbody new. unfold Res in Q.
  rewrite (step_identity (tsol s) new _ Hf H1 Hdg Q Hl eq_refl).
  unfold between. do 2 f_equal. f_equal. unfold plus_k. apply functional_extensionality; intro x. ring.
Qed.

(** With an offset of at least one half no run gains energy, whatever its length,
    the time step and the start. *)
Theorem C84_never_gains : forall ts1 ts2 s,
  exact_solver solve -> wave_setting -> lagged_drag ->
  positive_weights M -> unit_normals M -> passive_drag E -> proper_viscosity W E ->
  independent W M g h -> 0 <= dt -> 1/2 <= theta ->
  let run := fun ts => tsol (fold_left (fun s t => step t s) ts s) in
  energy (run (ts1 ++ ts2)%list) <= energy (run ts1).
Proof.
  intros ts1 ts2 s Hs Hw Hl Hpw Hun Hpd Hpv Hin Hdt Hth run. unfold run.
  assert (Hex : forall c u, solvable_step c u) by (apply C84_step_exists; try assumption; lra).
  rewrite fold_left_app.
  generalize (fold_left (fun s t => step t s) ts1 s). clear s run ts1.
  induction ts2 as [|t ts IH]; intro s; cbn [fold_left]; [lra|].
  eapply Rle_trans; [apply IH|].
  pose proof (C84_theta_budget t s Hs Hw Hl (Hex _ _)) as Q. cbv zeta in Q.
  destruct Hw as (Hf & H1 & Hdg).
  set (new := tsol (step t s)) in *. clearbody new.
  destruct (C84_losses (fun x => tsol s x + theta * (new x - tsol s x)) (if semi then tsol s else new) Hf Hpw Hun Hpd Hpv) as (_ & _ & _ & L).
  destruct Hf as (_ & Hg & Hh & _).
  pose proof (energy_pos (fun x => new x - tsol s x) Hg Hh Hpw) as P.
  assert (0 <= dt * loss (fun x => tsol s x + theta * (new x - tsol s x)) (if semi then tsol s else new)) by (apply Rmult_le_pos; assumption).
  assert (0 <= (2 * theta - 1) * energy (fun x => new x - tsol s x)) by (apply Rmult_le_pos; [lra|exact P]).
  lra.
Qed.

(** nothing that dissipates: continuous elevation, no drag, no viscosity *)
Definition lossless : Prop :=
  e_eta_dg E = false /\ e_nu E = None /\ e_linear E = None /\ steady_drag E.

Lemma no_loss : lossless -> forall u w, loss u w = 0.
Proof.
  intros (L1 & L2 & L3 & (D1 & D2 & D3 & D4 & D5)) u w. unfold loss, flux_loss, drag_work.
  rewrite L1. unfold viscosity, linear_drag, qdrag, quadratic_drag, drag_coefficient, turbine_drag, boundary_drag.
  rewrite L2, L3, D1, D2, D3, D5. cbn [fold_right].
  rewrite ds_zero; [ring|]. intros b _. rewrite D4. reflexivity.
Qed.

(** Without any loss (continuous elevation) the scheme with offset one half keeps
    the energy exactly, with and without rotation; with a larger one it loses,
    with a smaller one it gains, in every step that changes the state. *)
Theorem C84_lossless : forall ts s,
  exact_solver solve -> free_waves E h -> lossless ->
  positive_weights M -> unit_normals M -> independent W M g h -> 0 <= dt -> 0 <= theta ->
  let run := fun ts => tsol (fold_left (fun s t => step t s) ts s) in
  (theta = 1/2 -> energy (run ts) = energy (tsol s)) /\
  (forall t, energy (run [t]) = energy (tsol s) + (1 - 2 * theta) * energy (fun x => run [t] x - tsol s x)).
Proof.
  intros ts s Hs Hf Hll Hpw Hun Hin Hdt Hth run.
  pose proof Hll as (L1 & L2 & L3 & Hsd). pose proof Hsd as (D1 & D2 & D3 & _).
  assert (Hw : wave_setting).
  { split; [exact Hf|]. split; [split; left; assumption|]. rewrite L1. discriminate. }
  assert (Hl : lagged_drag) by (right; exact Hsd).
  assert (Hex : forall c u, solvable_step c u).
  { apply C84_step_exists; try assumption.
    - destruct Hsd as (_ & _ & _ & D4 & D5). unfold passive_drag. rewrite D2, L3, D5.
      split; [discriminate|]. split; [discriminate|]. split; [|intros pts w den ct []].
      intros k cd Hk. rewrite D4 in Hk. discriminate.
    - intros nu Hn. rewrite L2 in Hn. discriminate. }
  assert (Hone : forall t s, energy (tsol (step t s)) = energy (tsol s) + (1 - 2 * theta) * energy (fun x => tsol (step t s) x - tsol s x)).
  { intros t s'. rewrite (C84_theta_budget t s' Hs Hw Hl (Hex _ _)) at 1. rewrite no_loss by exact Hll. ring. }
  split.
  - intro Ht. unfold run. clear run. revert s. induction ts as [|t ts IH]; intro s; cbn [fold_left]; [reflexivity|].
    rewrite IH, Hone, Ht. field.
  - intro t. unfold run. cbn [fold_left]. apply Hone.
Qed.

(** A step has one solution only, up to functions without energy. *)
Theorem C84_step_unique : forall u u1 u2,
  wave_setting -> lagged_drag -> positive_weights M -> unit_normals M -> passive_drag E -> proper_viscosity W E ->
  0 <= dt -> 0 <= theta ->
  let S := theta_step mass (fun v => swe_vector W E dh v (if semi then u else v)) (fun v => swe_vector W E dh v v) dt theta u in
  S u1 -> S u2 ->
  energy (fun x => u1 x - u2 x) = 0 /\ (independent W M g h -> u1 = u2).
Proof.
  intros u u1 u2 (Hf & H1 & Hdg) Hl Hpw Hun Hpd Hpv Hdt Hth S S1 S2.
  set (d := plus_k u1 (-1) u2).
  assert (Ed : (fun x => u1 x - u2 x) = d) by (apply functional_extensionality; intro x; unfold d, plus_k; ring).
  assert (Hout : forall x, ~ in_space W x -> u1 x = u2 x).
  { intros x Hx. specialize (S1 x). specialize (S2 x). cbv beta in S1, S2.
    rewrite !mass_out, !rows_out in S1 by exact Hx. rewrite !mass_out, !rows_out in S2 by exact Hx. lra. }
  enough (HE : energy (fun x => u1 x - u2 x) = 0).
  { split; [exact HE|]. intro Hin. apply functional_extensionality; intro x.
    destruct (in_space_dec W x) as [Hx|Hx]; [|apply Hout, Hx].
    pose proof (Hin _ HE x Hx) as Q. cbv beta in Q. lra. }
  rewrite Ed.
  set (w := if semi then u else u1).
  assert (Q : row_work d (fun x => mass u1 x + (-1) * mass u2 x) = dt * theta * form d d w).
  { rewrite (row_work_ext _ _ (fun x => (fun y => dt * theta * swe_vector W E dh u1 w y) x
        + (- (dt * theta)) * swe_vector W E dh u2 (if semi then u else u2) x)).
    2:{ intro x. specialize (S1 x). specialize (S2 x). cbv beta in S1, S2. unfold w. lra. }
    rewrite row_work_lin.
    rewrite (row_work_ext _ (fun y => dt * theta * swe_vector W E dh u1 w y) (fun y => (fun _ => 0) y + dt * theta * swe_vector W E dh u1 w y)) by (intro; ring).
    rewrite row_work_lin.
    rewrite row_work_zero.
    rewrite !work_form by assumption.
    assert (Hlag : form d u2 (if semi then u else u2) = form d u2 w).
    { destruct Hl as [Hs|Hs]; [unfold w; rewrite Hs; reflexivity|apply form_lag; assumption]. }
    rewrite Hlag. unfold d at 4. rewrite form_lin by assumption. ring. }
  rewrite row_work_lin, !work_mass in Q. rewrite form_self in Q by assumption.
  assert (Q2 : eprod u1 d + (-1) * eprod u2 d = eprod d d) by (unfold d at 3; rewrite eprod_lin; reflexivity).
  rewrite Q2 in Q.
  destruct (C84_losses d w Hf Hpw Hun Hpd Hpv) as (_ & _ & _ & L).
  destruct Hf as (_ & Hg & Hh & _). pose proof (energy_pos d Hg Hh Hpw) as P.
  rewrite energy_prod in P |- *.
  assert (0 <= dt * theta * loss d w) by (repeat apply Rmult_le_pos; assumption). lra.
Qed.

(** ** Diagonally implicit Runge-Kutta schemes *)
(** Every implicit scheme except DIRK33: no run gains energy. [Fx] gives the
    tendency: the mass matrix applied to it is the residual. *)
Theorem C84_dirk_never_gains : forall (En : Type) name T c (Fx : (dof -> R) -> dof -> R) solvek semik dte ufe ts1 ts2 (s : @st dof En),
  In (name, T, c) implicit_schemes -> name <> "DIRK33"%string ->
  free_waves E h -> steady_drag E -> (e_eta_dg E = true -> gauss_space W M) ->
  positive_weights M -> unit_normals M -> passive_drag E -> proper_viscosity W E ->
  independent W M g h ->
  (forall u x, mass (Fx u) x = swe_vector W E dh u u x) ->
  exact_solver solvek -> 0 <= dte ->
  let run := fun ts => sol (fold_left (fun s t => dirk_advance T (fun (_ : En) u _ => Fx u) solvek semik dte ufe t s) ts s) in
  energy (run (ts1 ++ ts2)%list) <= energy (run ts1).
Proof.
  intros En name T c Fx solvek semik dte ufe ts1 ts2 s Hin Hname Hf Hd Hga Hpw Hun Hpd Hpv Hind HF Hs Hdt run.
  unfold run. rewrite fold_left_app. generalize (fold_left (fun s t => dirk_advance T (fun (_ : En) u _ => Fx u) solvek semik dte ufe t s) ts1 s).
  clear s run ts1.
  pose proof Hd as (D1 & D2 & D3 & _). pose proof Hf as (_ & Hg & Hh & _).
  assert (H1 : one_drag E) by (split; left; assumption).
  assert (Hdg : e_eta_dg E = true -> positive_weights M /\ gauss_space W M) by (intro; split; auto).
  assert (Hinv : forall u v, (forall x, mass u x = mass v x) -> u = v).
  { intros u v Huv. apply functional_extensionality; intro x.
    destruct (in_space_dec W x) as [Hx|Hx].
    2:{ specialize (Huv x). rewrite !mass_out in Huv by exact Hx. exact Huv. }
    assert (Q : energy (plus_k u (-1) v) = 0).
    { rewrite energy_prod, <- work_mass. rewrite (row_work_ext _ _ (fun _ => 0)); [rewrite row_work_zero; ring|].
      intro y. rewrite mass_linear, Huv. ring. }
    pose proof (Hind _ Q x Hx) as P. unfold plus_k in P. lra. }
  assert (Hlin : forall u k v, Fx (plus_k u k v) = plus_k (Fx u) k (Fx v)).
  { intros u k v. apply Hinv. intro x. rewrite mass_linear, !HF.
    rewrite (rows_lag Hf Hd u u (plus_k u k v)), (rows_lag Hf Hd v v (plus_k u k v)). apply rows_linear; assumption. }
  assert (Hex : forall i (base : dof -> R), (i < ns T)%nat -> exists k, k = Fx (fun x => base x + dte * ta T i i * k x)).
  { intros i base Hi.
    assert (Ha : 0 <= ta T i i) by (apply (diagonal_nonneg name T c); assumption).
    destruct (system_onto (dte * ta T i i) base (fun x => swe_vector W E dh base base x)) as (k & Hk); try assumption.
    - intro v. apply energy_pos; assumption.
    - intros v w. apply C84_losses; assumption.
    - apply Rmult_le_pos; assumption.
    - exists k. apply Hinv. intro x. rewrite HF. change (fun y => base y + dte * ta T i i * k y) with (plus_k base (dte * ta T i i) k).
      rewrite (rows_lag Hf Hd _ _ base), rows_linear by assumption. specialize (Hk x). lra. }
  assert (HL : linear_operator Fx).
  { split.
    - intros u v x. pose proof (f_equal (fun f => f x) (Hlin u 1 v)) as Q. cbv beta in Q. unfold plus_k in Q.
      replace (fun y => u y + v y) with (fun y => u y + 1 * v y) by (apply functional_extensionality; intro; ring).
      rewrite Q. ring.
    - intros a u x.
      assert (Z : Fx (fun _ => 0) x = 0).
      { pose proof (f_equal (fun f => f x) (Hlin (fun _ => 0) (-1) (fun _ => 0))) as Q. cbv beta in Q. unfold plus_k in Q.
        replace (fun _ : dof => 0 + -1 * 0) with (fun _ : dof => 0) in Q by (apply functional_extensionality; intro; ring). lra. }
      pose proof (f_equal (fun f => f x) (Hlin (fun _ => 0) a u)) as Q. cbv beta in Q. unfold plus_k in Q.
      replace (fun y => a * u y) with (fun y => 0 + a * u y) by (apply functional_extensionality; intro; ring).
      rewrite Q, Z. ring. }
  assert (Hz : forall w, eprod (fun _ => 0) w = 0).
  { intro w. pose proof (eprod_lin (fun _ => 0) (-1) (fun _ => 0) w) as Q. unfold plus_k in Q.
    replace (fun _ : dof => 0 + -1 * 0) with (fun _ : dof => 0) in Q by (apply functional_extensionality; intro; ring). lra. }
  assert (Hip : inner_product eprod).
  { split; [apply eprod_sym|]. split; [|split].
    - intros u v w. rewrite <- (Rmult_1_l (eprod v w)), <- eprod_lin. f_equal. unfold plus_k.
      apply functional_extensionality; intro; ring.
    - intros a u w. transitivity (eprod (plus_k (fun _ => 0) a u) w).
      + f_equal. unfold plus_k. apply functional_extensionality; intro; ring.
      + rewrite eprod_lin, Hz. ring.
    - intro u. pose proof (energy_pos u Hg Hh Hpw) as P. rewrite energy_prod in P. lra. }
  assert (Hdis : dissipative eprod Fx).
  { intro u. rewrite eprod_sym, <- work_mass. rewrite (row_work_ext u _ (swe_vector W E dh u u)) by apply HF.
    rewrite work_form, form_self by assumption.
    destruct (C84_losses u u Hf Hpw Hun Hpd Hpv) as (_ & _ & _ & L). lra. }
  assert (Hn : (0 < ns T)%nat).
  { clear - Hin. cbn [In implicit_schemes] in Hin.
    repeat (destruct Hin as [Hin|Hin]; [apply (f_equal (fun p => snd (fst p))) in Hin; cbn [fst snd] in Hin; subst T; cbn; lia|]).
    contradiction. }
  induction ts2 as [|t ts IH]; intro s; cbn [fold_left]; [lra|].
  eapply Rle_trans; [apply IH|].
  pose proof (C24_tendency_form_implicit T (fun (_ : En) u => Fx u) solvek semik dte ufe t s Hn Hs (fun i _ base Hi => Hex i base Hi)) as Hst.
  cbv zeta beta in Hst. set (new := sol (dirk_advance _ _ _ _ _ _ _ _)) in *. clearbody new.
  replace (fun (_ : En) u => Fx u) with (fun (e : En) y x => Fx y x + (fun _ _ => 0) e x) in Hst
    by (do 3 (apply functional_extensionality; intro); ring).
  assert (H0 : implicit_step (ns T) (ta T) (tb T) (fun (e : En) y x => Fx y x + (fun _ _ => 0) e x) dte
     (fun i => forced ufe (abscissae t dte (tc T) (S i)) (env s)) (fun _ => 0) (fun _ => 0)).
  { exists (fun _ _ => 0). split.
    - intros i _. apply functional_extensionality; intro x.
      assert (along (fun _ : dof => 0) dte (S i) (ta T i) (fun _ _ => 0) = (fun _ => 0 * 0)) as ->.
      { unfold along. apply functional_extensionality; intro y.
        rewrite Sum_null. ring. }
      destruct HL as [_ HL]. rewrite (HL 0 (fun _ => 0)). ring.
    - unfold along. apply functional_extensionality; intro y.
      rewrite Sum_null. ring. }
  pose proof (C70_energy name T c Hin Hname dof En Fx (fun _ _ => 0) dte _ eprod _ _ _ _ HL Hip Hdis Hdt Hst H0) as Q.
  unfold distance2 in Q. rewrite !energy_prod.
  replace (fun x => new x - 0) with new in Q by (apply functional_extensionality; intro; ring).
  replace (fun x => sol s x - 0) with (sol s) in Q by (apply functional_extensionality; intro; ring).
  lra.
Qed.
End Waves.
