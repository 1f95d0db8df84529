(** C49: volume conservation, water at rest, energy. *)
From Coq Require Import Reals List Bool Lra.
From Verif Require Import Forms_Model Forms_Spec Forms_Proofs.
Import ListNotations.
Open Scope R_scope.

Ltac zrw H := cbv zeta in H; rewrite H; clear H.

Lemma someinj {A} : forall a b : A, Some a = Some b -> a = b.
Proof. intros a b H. injection H as ->. reflexivity. Qed.

Section SWE.
Context {V F B : Type}.
Variable E : swe_env V F B.
Notation M := (e_mesh E).
Notation g := (e_g E).
Notation KS := (@const_s V F B).
Notation ZV := (@zero_v V F B).
Implicit Types (psi uv uv_old u : vfield V F B) (phi eta eta_old : sfield V F B).

(* ------------------------------------------------------------------ *)
(** * Volume *)

Lemma hu_div_const : forall uv eta uv_old eta_old dh,
  e_u_jump E = true ->
  hu_div E (KS 1) uv eta uv_old eta_old dh
  = - ds M (fun b => match e_bnd E (m_marker M b) with
                     | Closed => 0
                     | Open e => hu_flux_b E uv eta uv_old eta_old e b
                     end).
Proof.
  intros uv eta uv_old eta_old dh Hj. unfold hu_div. rewrite Hj.
  assert (H1 : dx M (fun p => dot2 (s_gv (KS 1) p)
                        (scal2 (hv E eta_old p) (vv uv p))) = 0).
  { apply integral_zero. intros p _. cbn [const_s s_gv]. apply dot2_zero_l. }
  rewrite H1.
  assert (H2 : (if e_eta_dg E then
            dS M (fun f =>
              let h := avg (hf E eta_old f) in
              let uv_rie := add2 (avg_v uv f) (scal2 (sqrt (g / h)) (jump_n M eta f)) in
              dot2 (jump_n M (KS 1) f) (scal2 h uv_rie))
          else 0) = 0).
  { destruct (e_eta_dg E); [|reflexivity].
    apply integral_zero. intros f _. cbv zeta.
    assert (jump_n M (KS 1) f = (0, 0)) as ->.
    { unfold jump_n, normal; cbn [const_s s_f fst snd]. f_equal; ring. }
    apply dot2_zero_l. }
  zrw H2.
  assert (H3 : ds M (fun b => match e_bnd E (m_marker M b) with
                     | Open e => hu_flux_b E uv eta uv_old eta_old e b
                                 * s_b (KS 1) b
                     | Closed => 0 end)
             = ds M (fun b => match e_bnd E (m_marker M b) with
                     | Closed => 0
                     | Open e => hu_flux_b E uv eta uv_old eta_old e b end)).
  { apply integral_ext. intros b _. destruct (e_bnd E (m_marker M b)); cbn [const_s s_b]; ring. }
  rewrite H3. ring.
Qed.

(** The total volume changes only by the flux through the open boundaries and
    the volume source (the rate of change of the volume is the residual tested
    with 1), whatever the velocity, elevation, depth formulation, order and
    boundary types. *)
Theorem C49_volume_budget : forall uv eta uv_old eta_old dh,
  e_u_jump E = true ->
  continuity_residual E (KS 1) uv eta uv_old eta_old dh
  = - ds M (fun b => match e_bnd E (m_marker M b) with
                     | Closed => 0
                     | Open e => hu_flux_b E uv eta uv_old eta_old e b
                     end)
    + match e_vsource E with Some s => dx M s | None => 0 end.
Proof.
  intros. unfold continuity_residual. rewrite hu_div_const by assumption.
  f_equal. unfold continuity_source. destruct (e_vsource E); [|reflexivity].
  apply integral_ext. intros p _. cbn [const_s s_v]. ring.
Qed.

(** With walls only and no source the volume does not change. *)
Theorem C49_volume_conserved : forall uv eta uv_old eta_old dh,
  e_u_jump E = true -> all_closed E -> e_vsource E = None ->
  continuity_residual E (KS 1) uv eta uv_old eta_old dh = 0.
Proof.
  intros uv eta uv_old eta_old dh Hj Hc Hs.
  rewrite C49_volume_budget by assumption. rewrite Hs.
  assert (ds M (fun b => match e_bnd E (m_marker M b) with
                     | Closed => 0
                     | Open e => hu_flux_b E uv eta uv_old eta_old e b end) = 0) as ->.
  { apply integral_zero. intros b _. rewrite (Hc (m_marker M b)). reflexivity. }
  ring.
Qed.

(** The same for a continuous velocity, provided div(H u) integrates to the flux
    through the boundary. *)
Theorem C49_volume_conserved_continuous : forall uv eta uv_old eta_old dh,
  e_u_jump E = false -> all_closed E -> e_vsource E = None ->
  dx M dh = ds M (fun b => hb E (s_b eta_old) b * unb M uv b) ->
  continuity_residual E (KS 1) uv eta uv_old eta_old dh = 0.
Proof.
  intros uv eta uv_old eta_old dh Hj Hc Hs Hg.
  unfold continuity_residual, hu_div, continuity_source. rewrite Hj, Hs.
  assert (dx M (fun p => dh p * s_v (KS 1) p) = dx M dh) as ->.
  { apply integral_ext. intros p _. cbn [const_s s_v]. ring. }
  rewrite Hg.
  assert (ds M (fun b => match e_bnd E (m_marker M b) with
            | Open e => match ex_un e with
                        | Some _ => - hb E (s_b eta_old) b * unb M uv b
                                    * s_b (KS 1) b
                        | None => 0 end
            | Closed => - hb E (s_b eta_old) b * unb M uv b
                        * s_b (KS 1) b end)
          = - ds M (fun b => hb E (s_b eta_old) b * unb M uv b)) as ->.
  { unfold ds. rewrite <- integral_opp. apply integral_ext. intros b _.
    rewrite (Hc (m_marker M b)). cbn [const_s s_b]. ring. }
  ring.
Qed.

(** Where a normal velocity 'un' is prescribed the volume flux is not the
    prescribed one but half way between it and the interior one; in particular
    'un' = 0 is not a wall. *)
Theorem C49_prescribed_un_flux : forall uv eta e un b,
  ex_eta e = None -> ex_uv e = UNormal un ->
  dot2 (m_nb M b) (m_nb M b) = 1 -> 0 < g ->
  hu_flux_b E uv eta uv eta e b
  = e_depth E (e_bath_b E b)
      (s_b eta b + sqrt (hb E (s_b eta) b / g) * (unb M uv b - un b))
    * (0.5 * (unb M uv b + un b)).
Proof.
  intros uv eta e un b He Hu Hn Hg.
  unfold hu_flux_b, eta_ext, uv_ext. rewrite He, Hu. cbv zeta.
  assert (Hb : hb E (fun b0 => s_b eta b0) b = hb E (s_b eta) b) by reflexivity.
  rewrite ?Hb, ?half_plus.
  assert (H1 : dot2 (add2 (vb uv b) (un b * fst (m_nb M b), un b * snd (m_nb M b))) (m_nb M b)
               = unb M uv b + un b).
  { transitivity (unb M uv b + un b * dot2 (m_nb M b) (m_nb M b)).
    - unfold unb, dot2, add2; cbn [fst snd]; ring.
    - rewrite Hn; ring. }
  assert (H2 : dot2 (sub2 (vb uv b) (un b * fst (m_nb M b), un b * snd (m_nb M b))) (m_nb M b)
               = unb M uv b - un b).
  { transitivity (unb M uv b - un b * dot2 (m_nb M b) (m_nb M b)).
    - unfold unb, dot2, sub2; cbn [fst snd]; ring.
    - rewrite Hn; ring. }
  rewrite H1, H2. f_equal. rewrite Rminus_diag_eq by reflexivity. ring.
Qed.

(** For a continuous velocity a boundary with prescribed 'un' contributes exactly
    what a wall contributes: the prescribed value is not used. *)
Theorem C49_continuous_un_is_a_wall : forall phi uv eta uv_old eta_old dh,
  e_u_jump E = false ->
  (forall k e, e_bnd E k = Open e -> ex_un e <> None) ->
  hu_div E phi uv eta uv_old eta_old dh
  = - (dx M (fun p => dh p * s_v phi p)
       - ds M (fun b => hb E (s_b eta_old) b * unb M uv b * s_b phi b)).
Proof.
  intros phi uv eta uv_old eta_old dh Hj Hu. unfold hu_div. rewrite Hj.
  assert (ds M (fun b => match e_bnd E (m_marker M b) with
            | Open e => match ex_un e with
                        | Some _ => - hb E (s_b eta_old) b * unb M uv b * s_b phi b
                        | None => 0 end
            | Closed => - hb E (s_b eta_old) b * unb M uv b * s_b phi b end)
          = - ds M (fun b => hb E (s_b eta_old) b * unb M uv b * s_b phi b)) as ->.
  { unfold ds. rewrite <- integral_opp. apply integral_ext. intros b _.
    destruct (e_bnd E (m_marker M b)) as [|e] eqn:Eb; [ring|].
    specialize (Hu _ _ Eb). destruct (ex_un e); [ring|congruence]. }
  ring.
Qed.

(* ------------------------------------------------------------------ *)
(** * Water at rest *)

Lemma vb_zero : forall b, vb ZV b = (0, 0).
Proof. reflexivity. Qed.
Lemma vv_zero : forall p, vv ZV p = (0, 0).
Proof. reflexivity. Qed.
Lemma vf_zero : forall f s, vf ZV f s = (0, 0).
Proof. reflexivity. Qed.
Lemma unb_zero : forall b, unb M ZV b = 0.
Proof. intro b. unfold unb. rewrite vb_zero. apply dot2_zero_l. Qed.
Lemma jump_vn_zero : forall f, jump_vn M ZV f = 0.
Proof. intro f. unfold jump_vn. rewrite !vf_zero, !dot2_zero_l. ring. Qed.
Lemma avg_v_zero : forall f, avg_v ZV f = (0, 0).
Proof. intro f. unfold avg_v, avg; cbn. f_equal; lra. Qed.
Lemma jump_n_const : forall c f, jump_n M (KS c) f = (0, 0).
Proof. intros. unfold jump_n, normal; cbn [const_s s_f fst snd]. f_equal; ring. Qed.

Lemma rest_eta_ext : forall c e b, at_rest_bnd c (Open e) ->
  eta_ext e (s_b (KS c)) b = c.
Proof.
  intros c e b (He & _). unfold eta_ext. destruct (ex_eta e) as [h|]; [|reflexivity].
  apply (He h eq_refl).
Qed.

Lemma rest_uv_ext : forall c e b, at_rest_bnd c (Open e) ->
  uv_ext E e (s_b (KS c)) (vb ZV) b = (0, 0).
Proof.
  intros c e b (_ & Hu & _). unfold uv_ext. destruct (ex_uv e) as [|u|u|q].
  - apply vb_zero.
  - apply Hu.
  - rewrite (Hu b). f_equal; ring.
  - rewrite (Hu b). unfold Rdiv. f_equal; ring.
Qed.

Lemma zero_pressure : forall c psi,
  (forall k, at_rest_bnd c (e_bnd E k)) ->
  gauss_v M psi ->
  pressure_gradient E psi ZV (KS c) (KS c) = 0.
Proof.
  intros c psi Hb Hg. unfold pressure_gradient. destruct (e_eta_dg E).
  - assert (dx M (fun p => s_v (KS c) p * divv psi p)
            = c * dx M (divv psi)) as ->.
    { unfold dx. rewrite <- integral_scal. reflexivity. }
    assert (dS M (fun f => (avg (s_f (KS c) f)
              + sqrt (avg (hf E (KS c) f) / g) * jump_vn M ZV f) * jump_vn M psi f)
            = c * dS M (jump_vn M psi)) as ->.
    { unfold dS. rewrite <- integral_scal. apply integral_ext. intros f _.
      rewrite jump_vn_zero. unfold avg; cbn [const_s s_f]. rewrite half_plus. ring. }
    assert (Hz : ds M (fun b => match e_bnd E (m_marker M b) with
           | Open e =>
               let un_jump :=
                 dot2 (sub2 (vb ZV b) (uv_ext E e (s_b (KS c)) (vb ZV) b)) (m_nb M b) in
               (0.5 * (s_b (KS c) b + eta_ext e (s_b (KS c)) b)
                + sqrt (hb E (s_b (KS c)) b / g) * un_jump) * unb M psi b
           | Closed =>
               (s_b (KS c) b + sqrt (hb E (s_b (KS c)) b / g) * unb M ZV b)
               * unb M psi b
           end) = c * ds M (unb M psi)).
    { unfold ds. rewrite <- integral_scal. apply integral_ext. intros b _.
      specialize (Hb (m_marker M b)). destruct (e_bnd E (m_marker M b)) as [|e].
      - rewrite unb_zero. cbn [const_s s_b]. ring.
      - rewrite (rest_eta_ext c e b Hb), (rest_uv_ext c e b Hb), vb_zero.
        cbv zeta. unfold sub2. cbn [fst snd const_s s_b].
        rewrite half_plus, (Rminus_diag_eq 0 0 eq_refl), dot2_zero_l. ring. }
    zrw Hz.
    unfold gauss_v, gauss in Hg. rewrite Hg.
    assert (dS M (fun f => dot2 (vf psi f true) (normal M f true)
                           + dot2 (vf psi f false) (normal M f false))
            = dS M (jump_vn M psi)) as -> by reflexivity.
    ring.
  - assert (dx M (fun p => dot2 (s_gv (KS c) p) (vv psi p)) = 0) as ->.
    { apply integral_zero. intros p _. cbn [const_s s_gv]. apply dot2_zero_l. }
    assert (Hz : ds M (fun b => match e_bnd E (m_marker M b) with
           | Open e =>
               let un_jump :=
                 dot2 (sub2 (vb ZV b) (uv_ext E e (s_b (KS c)) (vb ZV) b)) (m_nb M b) in
               (0.5 * (s_b (KS c) b + eta_ext e (s_b (KS c)) b)
                + sqrt (hb E (s_b (KS c)) b / g) * un_jump - s_b (KS c) b) * unb M psi b
           | Closed => 0 end) = 0).
    { apply integral_zero. intros b _.
      specialize (Hb (m_marker M b)). destruct (e_bnd E (m_marker M b)) as [|e]; [reflexivity|].
      rewrite (rest_eta_ext c e b Hb), (rest_uv_ext c e b Hb), vb_zero.
      cbv zeta. unfold sub2. cbn [fst snd const_s s_b].
      rewrite half_plus, (Rminus_diag_eq 0 0 eq_refl), dot2_zero_l. ring. }
    zrw Hz.
    ring.
Qed.

Lemma zero_advection : forall c psi,
  (forall k, at_rest_bnd c (e_bnd E k)) ->
  advection E psi ZV (KS c) ZV (KS c) = 0.
Proof.
  intros c psi Hb. unfold advection. destruct (e_nonlinear E); [|reflexivity].
  rewrite (dx_zero M).
  2:{ intros p _. rewrite vv_zero. apply dot2_zero_l. }
  assert (H0 : ds M (fun b => match e_bnd E (m_marker M b) with
           | Closed => 0
           | Open e =>
               let n := m_nb M b in
               let eta_jump := s_b (KS c) b - eta_ext e (s_b (KS c)) b in
               let un_rie :=
                 0.5 * dot2 (add2 (vb ZV b)
                               (uv_ext E e (s_b (KS c)) (vb ZV) b)) n
                 + sqrt (g / hb E (s_b (KS c)) b) * eta_jump in
               let uv_av := scal2 0.5 (add2 (uv_ext E e (s_b (KS c)) (vb ZV) b)
                                        (vb ZV b)) in
               un_rie * dot2 uv_av (vb psi b)
           end) = 0).
  { apply integral_zero. intros b _.
    specialize (Hb (m_marker M b)). destruct (e_bnd E (m_marker M b)) as [|e]; [reflexivity|].
    rewrite (rest_uv_ext c e b Hb), vb_zero. cbv zeta.
    assert (scal2 0.5 (add2 (0, 0) (0, 0)) = (0, 0)) as ->.
    { unfold scal2, add2; cbn [fst snd]; f_equal; ring. }
    rewrite dot2_zero_l. ring. }
  zrw H0.
  destruct (e_u_jump E).
  - rewrite (dS_zero M).
    2:{ intros f _. rewrite avg_v_zero. apply dot2_zero_l. }
    destruct (e_lax E) as [lf|]; [|ring].
    rewrite (dS_zero M).
    2:{ intros f _. unfold jump; cbn. ring. }
    rewrite (ds_zero M).
    2:{ intros b _. destruct (e_bnd E (m_marker M b)); [|reflexivity].
        rewrite unb_zero, Rabs_R0. ring. }
    ring.
  - ring.
Qed.

Lemma stress_zero : forall nu, stress_of E nu ((0, 0), (0, 0)) = ((0, 0), (0, 0)).
Proof.
  intro nu. unfold stress_of, scal_t, sym_t, scal2. destruct (e_grad_div E);
  cbn [fst snd]; repeat f_equal; ring.
Qed.
Lemma inner_t_zero_r : forall a, inner_t a ((0, 0), (0, 0)) = 0.
Proof. intro a. unfold inner_t. cbn [fst snd]. rewrite !dot2_zero_r. ring. Qed.
Lemma inner_t_zero_l : forall a, inner_t ((0, 0), (0, 0)) a = 0.
Proof. intro a. unfold inner_t. cbn [fst snd]. rewrite !dot2_zero_l. ring. Qed.
Lemma tensor_jump_const : forall a b f,
  tensor_jump E (const_v a b : vfield V F B) f = ((0, 0), (0, 0)).
Proof.
  intros. unfold tensor_jump, add_t, outer, add2, scal2, vf, normal; cbn. f_equal; f_equal; ring.
Qed.
Lemma avg_t_zero : forall a, (forall s, a s = ((0, 0), (0, 0))) -> avg_t a = ((0, 0), (0, 0)).
Proof.
  intros a H. unfold avg_t. rewrite !H. unfold scal_t, add_t, scal2, add2; cbn [fst snd].
  f_equal; f_equal; ring.
Qed.
Lemma vec_t_zero : forall a, vec_t a ((0, 0), (0, 0)) = (0, 0).
Proof. intro a. unfold vec_t; cbn [fst snd]. f_equal; ring. Qed.

Lemma outer_zero_l : forall n, outer (0, 0) n = ((0, 0), (0, 0)).
Proof. intro n. unfold outer, scal2; cbn [fst snd]. f_equal; f_equal; ring. Qed.

(** Viscosity vanishes for a uniform velocity away from open boundaries, and at
    rest also there. *)
Lemma zero_viscosity : forall c psi,
  (forall k, at_rest_bnd c (e_bnd E k)) ->
  viscosity E psi ZV (KS c) (KS c) = 0.
Proof.
  intros c psi Hb. unfold viscosity. destruct (e_nu E) as [nu|]; [|reflexivity].
  rewrite (dx_zero M).
  2:{ intros p _. unfold grad_v at 2; cbn [zero_v const_v v_x v_y const_s s_gv].
      rewrite stress_zero. apply inner_t_zero_r. }
  assert (H0 : (if e_grad_depth E then
              dx M (fun p =>
                - dot2 (vv psi p)
                    (vec_t (scal2 (/ hv E (KS c) p) (e_grad_h E p))
                       (stress_of E (s_v nu p) (grad_v ZV p))))
            else 0) = 0).
  { destruct (e_grad_depth E); [|reflexivity]. apply integral_zero. intros p _.
    unfold grad_v; cbn [zero_v const_v v_x v_y const_s s_gv].
    rewrite stress_zero, vec_t_zero, dot2_zero_r. ring. }
  zrw H0. destruct (e_u_jump E); [|ring].
  rewrite (dS_zero M).
  2:{ intros f _. unfold zero_v. rewrite tensor_jump_const, stress_zero, !inner_t_zero_r. cbv zeta.
      rewrite avg_t_zero.
      2:{ intro s. unfold grad_f; cbn [const_v v_x v_y const_s s_gf]. apply stress_zero. }
      rewrite !inner_t_zero_r. ring. }
  rewrite (ds_zero M).
  2:{ intros b _. specialize (Hb (m_marker M b)).
      destruct (e_bnd E (m_marker M b)) as [|e]; [reflexivity|].
      assert (Hd : forall d, delta_uv E ZV (KS c) e b = Some d -> d = (0, 0)).
      { intros d. unfold delta_uv. pose proof Hb as (He & Hu & Hn). clear He Hu.
        destruct (ex_un e) as [un|] eqn:Eu.
        - rewrite (Hn un eq_refl b), unb_zero. intro H; apply someinj in H; subst d.
          unfold scal2. f_equal; ring.
        - destruct (ex_uv e) as [|u|u|q] eqn:Ev; [discriminate| | |];
          intro H; apply someinj in H; subst d;
          rewrite (rest_uv_ext c e b Hb), vb_zero; unfold sub2; cbn [fst snd]; f_equal; ring. }
      destruct (delta_uv E ZV (KS c) e b) as [d|]; [|reflexivity].
      rewrite (Hd d eq_refl). cbv zeta. rewrite outer_zero_l, stress_zero, !inner_t_zero_r.
      unfold grad_b at 1; cbn [zero_v const_v v_x v_y const_s s_gb].
      rewrite stress_zero, inner_t_zero_r. ring. }
  ring.
Qed.

(** A lake at rest stays at rest: for flat surface and no velocity every
    momentum and continuity residual vanishes, over any bathymetry and for any
    depth formulation, viscosity, drag, Coriolis parameter, turbines and
    combination of walls and compatible open boundaries. *)
Theorem C49_lake_at_rest_momentum : forall c psi r,
  unforced E -> (forall k, at_rest_bnd c (e_bnd E k)) -> gauss_v M psi ->
  momentum_residual E psi ZV (KS c) ZV (KS c) = Some r -> r = 0.
Proof.
  intros c psi r (Hw & Hp & Hs & _ & H3) Hb Hg Hr.
  unfold momentum_residual in Hr.
  destruct (quadratic_drag E psi ZV ZV (KS c)) as [qd|] eqn:Eq; [|discriminate].
  apply someinj in Hr; subst r.
  rewrite (zero_pressure c psi Hb Hg), (zero_advection c psi Hb), (zero_viscosity c psi Hb).
  assert (coriolis E psi ZV = 0) as ->.
  { unfold coriolis. destruct (e_coriolis E); [|reflexivity].
    rewrite dx_zero; [ring|]. intros p _. rewrite vv_zero; cbn [fst snd]. ring. }
  assert (wind E psi (KS c) = 0) as ->.
  { unfold wind. destruct (e_wind E) as [t|]; [|reflexivity].
    apply integral_zero. intros p _. rewrite (Hw t eq_refl p), dot2_zero_l. unfold Rdiv; ring. }
  assert (atmospheric E psi = 0) as ->.
  { unfold atmospheric. destruct (e_patm_grad E) as [t|]; [|reflexivity].
    rewrite dx_zero; [ring|]. intros p _. rewrite (Hp t eq_refl p), dot2_zero_l.
    unfold Rdiv; ring. }
  assert (qd = 0) as ->.
  { unfold quadratic_drag in Eq. destruct (drag_coefficient E (KS c)) as [[cd|]|];
    [| |discriminate]; apply someinj in Eq; subst qd; [|reflexivity].
    rewrite dx_zero; [ring|]. intros p _. rewrite vv_zero, (dot2_zero_r (vv psi p)). unfold Rdiv; ring. }
  assert (linear_drag E psi ZV = 0) as ->.
  { unfold linear_drag. destruct (e_linear E); [|reflexivity].
    rewrite dx_zero; [ring|]. intros p _. rewrite vv_zero, dot2_zero_r. ring. }
  assert (boundary_drag E psi ZV ZV = 0) as ->.
  { unfold boundary_drag. rewrite ds_zero; [ring|]. intros b _.
    destruct (e_drag_b E (m_marker M b)); [|reflexivity]. cbv zeta.
    rewrite unb_zero, vb_zero.
    assert (sub2 (0, 0) (scal2 0 (m_nb M b)) = (0, 0)) as ->.
    { unfold sub2, scal2; cbn [fst snd]; f_equal; ring. }
    rewrite (dot2_zero_r (vb psi b)). ring. }
  assert (bottom_drag_3d E psi (KS c) = 0) as ->.
  { unfold bottom_drag_3d. destruct (e_drag3d E) as [[cd ub]|]; [|reflexivity].
    rewrite dx_zero; [ring|]. intros p _. rewrite (H3 cd ub eq_refl p).
    unfold scal2; cbn [fst snd]. rewrite !Rmult_0_r. apply dot2_zero_l. }
  assert (momentum_source E psi = 0) as ->.
  { unfold momentum_source. destruct (e_msource E) as [t|]; [|reflexivity].
    apply integral_zero. intros p _. rewrite (Hs t eq_refl p). apply dot2_zero_l. }
  assert (turbine_drag E psi ZV ZV (KS c) = 0) as ->.
  { unfold turbine_drag. induction (e_farms E) as [|[[[pts w] den] ct] l IH]; cbn [fold_right];
    [ring|]. rewrite integral_zero; [lra|]. intros p _.
    rewrite !vv_zero, (dot2_zero_r (vv psi p)). unfold Rdiv; ring. }
  ring.
Qed.

Theorem C49_lake_at_rest_split_momentum : forall c psi,
  unforced E -> (forall k, at_rest_bnd c (e_bnd E k)) -> gauss_v M psi ->
  split_momentum_residual E psi ZV (KS c) (KS c) = 0.
Proof.
  intros c psi (Hw & Hp & Hs & _ & H3) Hb Hg.
  unfold split_momentum_residual. rewrite (zero_pressure c psi Hb Hg).
  assert (coriolis E psi ZV = 0) as ->.
  { unfold coriolis. destruct (e_coriolis E); [|reflexivity].
    rewrite dx_zero; [ring|]. intros p _. rewrite vv_zero; cbn [fst snd]. ring. }
  assert (atmospheric E psi = 0) as ->.
  { unfold atmospheric. destruct (e_patm_grad E) as [t|]; [|reflexivity].
    rewrite dx_zero; [ring|]. intros p _. rewrite (Hp t eq_refl p), dot2_zero_l.
    unfold Rdiv; ring. }
  assert (momentum_source E psi = 0) as ->.
  { unfold momentum_source. destruct (e_msource E) as [t|]; [|reflexivity].
    apply integral_zero. intros p _. rewrite (Hs t eq_refl p). apply dot2_zero_l. }
  ring.
Qed.

Theorem C49_lake_at_rest_continuity : forall c phi,
  unforced E -> (forall k, at_rest_bnd c (e_bnd E k)) ->
  continuity_residual E phi ZV (KS c) ZV (KS c) (fun _ => 0) = 0.
Proof.
  intros c phi (_ & _ & _ & Hv & _) Hb. unfold continuity_residual.
  assert (continuity_source E phi = 0) as ->.
  { unfold continuity_source. destruct (e_vsource E) as [s|]; [|reflexivity].
    apply integral_zero. intros p _. rewrite (Hv s eq_refl p). ring. }
  unfold hu_div. destruct (e_u_jump E).
  - rewrite (dx_zero M).
    2:{ intros p _. rewrite vv_zero. unfold scal2; cbn [fst snd]. rewrite !Rmult_0_r.
        apply dot2_zero_r. }
    assert (Hz : (if e_eta_dg E then
            dS M (fun f =>
              let h := avg (hf E (KS c) f) in
              let uv_rie := add2 (avg_v ZV f) (scal2 (sqrt (g / h)) (jump_n M (KS c) f)) in
              dot2 (jump_n M phi f) (scal2 h uv_rie)) else 0) = 0).
    { destruct (e_eta_dg E); [|reflexivity]. apply integral_zero. intros f _. cbv zeta.
      rewrite avg_v_zero, jump_n_const. unfold scal2, add2; cbn [fst snd].
      rewrite !Rmult_0_r, !Rplus_0_r, !Rmult_0_r. apply dot2_zero_r. }
    zrw Hz.
    rewrite (ds_zero M); [ring|].
    intros b _. specialize (Hb (m_marker M b)).
    destruct (e_bnd E (m_marker M b)) as [|e]; [reflexivity|].
    unfold hu_flux_b. rewrite (rest_eta_ext c e b Hb), (rest_uv_ext c e b Hb), vb_zero.
    cbv zeta. cbn [const_s s_b].
    assert (add2 (0, 0) (0, 0) = (0, 0)) as ->.
    { unfold add2; cbn [fst snd]; f_equal; ring. }
    rewrite dot2_zero_l, Rminus_diag_eq by reflexivity. ring.
  - rewrite (dx_zero M) by (intros; ring).
    rewrite (ds_zero M); [ring|].
    intros b _. rewrite unb_zero.
    destruct (e_bnd E (m_marker M b)) as [|e]; [ring|]. destruct (ex_un e); ring.
Qed.

(* ------------------------------------------------------------------ *)
(** * Energy *)

(** The Coriolis term does no work. *)
Theorem C49_coriolis_no_work : forall u, coriolis E u u = 0.
Proof.
  intro u. unfold coriolis. destruct (e_coriolis E); [|reflexivity].
  rewrite dx_zero; [ring|]. intros p _. ring.
Qed.

Lemma pw : positive_weights M -> forall p, In p (m_cells M) -> 0 <= m_wv M p.
Proof. intros (H & _) p Hp. apply Rlt_le, H, Hp. Qed.
Lemma pf : positive_weights M -> forall p, In p (m_facets M) -> 0 <= m_wf M p.
Proof. intros (_ & H & _) p Hp. apply Rlt_le, H, Hp. Qed.
Lemma pb : positive_weights M -> forall p, In p (m_bnds M) -> 0 <= m_wb M p.
Proof. intros (_ & _ & H) p Hp. apply Rlt_le, H, Hp. Qed.

(** Bottom drag never adds energy: Manning and Nikuradse friction for any
    coefficients, a given drag coefficient if it is non-negative. *)
Theorem C49_quadratic_drag_dissipates : forall u uv_old eta_old r,
  positive_weights M -> 0 <= g ->
  (forall p, In p (m_cells M) -> 0 < hv E eta_old p) ->
  (forall cd, e_quad E = Some cd -> forall p, 0 <= cd p) ->
  quadratic_drag E u u uv_old eta_old = Some r -> r <= 0.
Proof.
  intros u uv_old eta_old r Hw Hg Hh Hq Hr. unfold quadratic_drag in Hr.
  destruct (drag_coefficient E eta_old) as [[cd|]|] eqn:Ed; [| |discriminate];
  apply someinj in Hr; subst r; [|lra].
  assert (Hcd : forall p, In p (m_cells M) -> 0 <= cd p).
  { intros p Hp. unfold drag_coefficient in Ed.
    destruct (e_manning E) as [mu|].
    - destruct (e_quad E); [discriminate|]. destruct (e_nikuradse E); [discriminate|].
      inversion Ed. unfold Rdiv. apply Rmult_le_pos.
      + apply Rmult_le_pos; [exact Hg|]. pose proof (Rle_0_sqr (mu p)) as H; exact H.
      + apply Rlt_le, Rinv_0_lt_compat. unfold Rpower. apply exp_pos.
    - destruct (e_nikuradse E) as [ks|].
      + destruct (e_quad E); [discriminate|]. inversion Ed.
        destruct (Rgt_dec (hv E eta_old p) (ks p)); [|lra].
        set (k := e_kappa E). set (l := ln (11.036 * hv E eta_old p / ks p)).
        pose proof (Rle_0_sqr k) as Hk. pose proof (Rle_0_sqr l) as Hl. unfold Rsqr in *.
        unfold Rdiv. destruct (Req_dec (l * l) 0) as [Hz|Hz].
        * rewrite Hz, Rinv_0. lra.
        * apply Rmult_le_pos; [lra|]. apply Rlt_le, Rinv_0_lt_compat. lra.
      + inversion Ed as [Ed']. apply (Hq cd Ed' p). }
  assert (0 <= dx M (fun p => cd p * sqrt (dot2 (vv uv_old p) (vv uv_old p)
                                      + e_smoother E * e_smoother E)
                    * dot2 (vv u p) (vv u p) / hv E eta_old p)); [|lra].
  apply integral_nonneg; [apply pw, Hw|]. intros p Hp. unfold Rdiv.
  apply Rmult_le_pos; [|apply Rlt_le, Rinv_0_lt_compat, Hh, Hp].
  apply Rmult_le_pos; [|apply dot2_self].
  apply Rmult_le_pos; [apply Hcd, Hp|apply sqrt_pos].
Qed.

Theorem C49_linear_drag_dissipates : forall u,
  positive_weights M -> (forall c, e_linear E = Some c -> forall p, 0 <= c p) ->
  linear_drag E u u <= 0.
Proof.
  intros u Hw Hc. unfold linear_drag. destruct (e_linear E) as [c|]; [|lra].
  assert (0 <= dx M (fun p => c p * dot2 (vv u p) (vv u p))); [|lra].
  apply integral_nonneg; [apply pw, Hw|]. intros p _.
  apply Rmult_le_pos; [apply (Hc c eq_refl)|apply dot2_self].
Qed.

Theorem C49_boundary_drag_dissipates : forall u uv_old,
  positive_weights M -> unit_normals M ->
  (forall k cd, e_drag_b E k = Some cd -> forall b, 0 <= cd b) ->
  boundary_drag E u u uv_old <= 0.
Proof.
  intros u uv_old Hw (_ & Hn) Hc. unfold boundary_drag.
  match goal with |- - ?I <= 0 => assert (0 <= I); [|lra] end.
  apply integral_nonneg; [apply pb, Hw|]. intros b Hb.
  destruct (e_drag_b E (m_marker M b)) as [cd|] eqn:Ed; [|lra].
  cbv zeta. apply Rmult_le_pos.
  - apply Rmult_le_pos; [apply (Hc _ cd Ed)|apply sqrt_pos].
  - specialize (Hn b Hb). unfold unb. destruct (vb u b) as [x y], (m_nb M b) as [n1 n2].
    unfold dot2, sub2, scal2 in *; cbn [fst snd] in *.
    replace (x * (x - (x * n1 + y * n2) * n1) + y * (y - (x * n1 + y * n2) * n2))
      with (x * x + y * y - (x * n1 + y * n2) * (x * n1 + y * n2)) by ring.
    assert ((x * n1 + y * n2) * (x * n1 + y * n2) + (x * n2 - y * n1) * (x * n2 - y * n1)
            = (x * x + y * y) * (n1 * n1 + n2 * n2)) by ring.
    rewrite Hn in H. pose proof (Rle_0_sqr (x * n2 - y * n1)) as H1. unfold Rsqr in H1. lra.
Qed.

Theorem C49_turbine_drag_dissipates : forall u uv_old eta_old,
  (forall pts w den ct, In (pts, w, den, ct) (e_farms E) ->
     (forall p, In p pts -> 0 <= w p) /\ (forall p, 0 <= den p) /\
     (forall a h, 0 <= ct a h) /\ (forall p, In p pts -> 0 < hv E eta_old p)) ->
  turbine_drag E u u uv_old eta_old <= 0.
Proof.
  intros u uv_old eta_old H. unfold turbine_drag.
  match goal with |- - ?I <= 0 => assert (0 <= I); [|lra] end.
  induction (e_farms E) as [|[[[pts w] den] ct] l IH]; cbn [fold_right]; [lra|].
  destruct (H pts w den ct (or_introl eq_refl)) as (H1 & H2 & H3 & H4).
  apply Rplus_le_le_0_compat.
  - apply integral_nonneg; [exact H1|]. intros p Hp. unfold Rdiv.
    apply Rmult_le_pos; [|apply Rlt_le, Rinv_0_lt_compat, H4, Hp].
    apply Rmult_le_pos; [|apply dot2_self].
    apply Rmult_le_pos; [apply Rmult_le_pos; [apply H3|apply H2]|apply sqrt_pos].
  - apply IH. intros pts' w' den' ct' Hin. apply (H pts' w' den' ct'). right; exact Hin.
Qed.

(** Advection with the mean flux: the energy balance is exact. It neither adds
    nor removes kinetic energy if the advecting velocity is divergence free with
    continuous normal component and tangential to the walls; the
    Lax-Friedrichs term only removes energy. *)
Definition lax_work (u uv_old : vfield V F B) : R :=
  match e_lax E with
  | None => 0
  | Some lf =>
      dS M (fun f => 0.5 * Rabs (dot2 (avg_v uv_old f) (normal M f false)) * lf
                     * (jump (s_f (v_x u) f) * jump (s_f (v_x u) f)
                        + jump (s_f (v_y u) f) * jump (s_f (v_y u) f)))
      + ds M (fun b => Rabs (unb M uv_old b) * lf * (unb M u b * unb M u b))
  end.

Theorem C49_advection_energy : forall u uv_old eta eta_old,
  e_nonlinear E = true -> e_u_jump E = true -> all_closed E -> gauss_kin M u uv_old ->
  advection E u u eta uv_old eta_old
  = 0.5 * dx M (fun p => dot2 (vv u p) (vv u p) * divv uv_old p)
    - 0.5 * dS M (fun f => dot2 (vf u f true) (vf u f false) * jump_vn M uv_old f)
    + 0.5 * ds M (fun b => dot2 (vb u b) (vb u b) * unb M uv_old b)
    - lax_work u uv_old.
Proof.
  intros u a eta eta_old Hn Hj Hc Hg. unfold advection. rewrite Hn, Hj.
  rewrite (ds_zero M
    (fun b => match e_bnd E (m_marker M b) with | Closed => 0 | Open _ => _ end)).
  2:{ intros b _. rewrite (Hc (m_marker M b)). reflexivity. }
  assert (HL : match e_lax E with
      | Some lf =>
          dS M (fun f => 0.5 * Rabs (dot2 (avg_v a f) (normal M f false)) * lf
            * (jump (s_f (v_x u) f) * jump (s_f (v_x u) f)
               + jump (s_f (v_y u) f) * jump (s_f (v_y u) f)))
          + ds M (fun b => match e_bnd E (m_marker M b) with
              | Closed =>
                  let n := m_nb M b in
                  let ue := sub2 (vb u b) (scal2 (2 * unb M u b) n) in
                  0.5 * Rabs (unb M a b) * lf * dot2 (vb u b) (sub2 (vb u b) ue)
              | Open _ => 0 end)
      | None => 0 end = lax_work u a).
  { unfold lax_work. destruct (e_lax E) as [lf|]; [|reflexivity]. f_equal.
    apply integral_ext. intros b _. rewrite (Hc (m_marker M b)). cbv zeta.
    set (A := Rabs (unb M a b)). unfold unb.
    destruct (vb u b) as [x y], (m_nb M b) as [n1 n2].
    unfold dot2, sub2, scal2; cbn [fst snd]. replace 0.5 with (1/2) by lra. field. }
  zrw HL. unfold gauss_kin, gauss in Hg.
  assert (Hv : dx M (fun p =>
           dot2 (vv u p)
             (s_v (v_x u) p * divv a p + dot2 (vv a p) (s_gv (v_x u) p),
              s_v (v_y u) p * divv a p + dot2 (vv a p) (s_gv (v_y u) p)))
       = dx M (fun p => 0.5 * dot2 (vv u p) (vv u p) * divv a p
                    + (fst (vv u p) * dot2 (vv a p) (s_gv (v_x u) p)
                       + snd (vv u p) * dot2 (vv a p) (s_gv (v_y u) p)))
         + 0.5 * dx M (fun p => dot2 (vv u p) (vv u p) * divv a p)).
  { unfold dx. rewrite <- integral_scal, <- integral_plus. apply integral_ext. intros p _.
    generalize (divv a p), (dot2 (vv a p) (s_gv (v_x u) p)), (dot2 (vv a p) (s_gv (v_y u) p)).
    intros d gx gy. unfold vv, dot2; cbn [fst snd]. replace 0.5 with (1/2) by lra. field. }
  rewrite Hv, Hg.
  assert (Hf : dS M (fun f =>
              let unp := dot2 (vf a f true) (normal M f true) in
              let unm := dot2 (vf a f false) (normal M f false) in
              dot2 (avg_v u f)
                (add2 (scal2 unp (vf u f true)) (scal2 unm (vf u f false))))
      = dS M (fun f => 0.5 * dot2 (vf u f true) (vf u f true) * dot2 (vf a f true) (normal M f true)
               + 0.5 * dot2 (vf u f false) (vf u f false) * dot2 (vf a f false) (normal M f false))
        + 0.5 * dS M (fun f => dot2 (vf u f true) (vf u f false) * jump_vn M a f)).
  { unfold dS. rewrite <- integral_scal, <- integral_plus. apply integral_ext. intros f _.
    cbv zeta. unfold jump_vn.
    set (ap := dot2 (vf a f true) (normal M f true)).
    set (am := dot2 (vf a f false) (normal M f false)).
    unfold avg_v, avg, vf, dot2, add2, scal2; cbn [fst snd]. replace 0.5 with (1/2) by lra. field. }
  zrw Hf.
  assert (Hbd : ds M (fun b => 0.5 * dot2 (vb u b) (vb u b) * unb M a b)
          = 0.5 * ds M (fun b => dot2 (vb u b) (vb u b) * unb M a b)).
  { unfold ds. rewrite <- integral_scal. apply integral_ext. intros b _. ring. }
  rewrite Hbd. lra.
Qed.

Theorem C49_lax_friedrichs_dissipates : forall u uv_old,
  positive_weights M -> (forall lf, e_lax E = Some lf -> 0 <= lf) ->
  0 <= lax_work u uv_old.
Proof.
  intros u a Hw Hl. unfold lax_work. destruct (e_lax E) as [lf|]; [|lra].
  specialize (Hl lf eq_refl). apply Rplus_le_le_0_compat.
  - apply integral_nonneg; [apply pf, Hw|]. intros f _.
    pose proof (Rabs_pos (dot2 (avg_v a f) (normal M f false))) as H1.
    pose proof (Rle_0_sqr (jump (s_f (v_x u) f))) as H2.
    pose proof (Rle_0_sqr (jump (s_f (v_y u) f))) as H3. unfold Rsqr in *.
    apply Rmult_le_pos; [apply Rmult_le_pos; [lra|exact Hl]|lra].
  - apply integral_nonneg; [apply pb, Hw|]. intros b _.
    pose proof (Rle_0_sqr (unb M u b)) as H2. unfold Rsqr in H2.
    apply Rmult_le_pos; [apply Rmult_le_pos; [apply Rabs_pos|exact Hl]|exact H2].
Qed.

(** Gravity waves over constant depth [h]: testing the pressure gradient with
    h*u and the continuity equation with g*eta, i.e. taking the rate of change of
    h|u|^2/2 + g eta^2/2, the Riemann terms only remove energy. *)
Theorem C49_wave_energy : forall u eta uv_old eta_old dh h,
  positive_weights M -> 0 < g -> 0 < h ->
  e_eta_dg E = true -> e_u_jump E = true -> all_closed E ->
  (forall b e, e_depth E b e = h) -> gauss_sv M eta u ->
  pressure_gradient E (scale_v h u) u eta eta_old
  + hu_div E (scale_s g eta) u eta uv_old eta_old dh
  = - (g * h * (dS M (fun f => sqrt (h / g) * (jump_vn M u f * jump_vn M u f)
                               + sqrt (g / h) * dot2 (jump_n M eta f) (jump_n M eta f))
                + ds M (fun b => sqrt (h / g) * (unb M u b * unb M u b))))
  /\ pressure_gradient E (scale_v h u) u eta eta_old
     + hu_div E (scale_s g eta) u eta uv_old eta_old dh <= 0.
Proof.
  intros u eta uv_old eta_old dh h Hw Hg Hh Hd Hj Hc Hdep Hga.
  assert (HE : pressure_gradient E (scale_v h u) u eta eta_old
  + hu_div E (scale_s g eta) u eta uv_old eta_old dh
  = - (g * h * (dS M (fun f => sqrt (h / g) * (jump_vn M u f * jump_vn M u f)
                               + sqrt (g / h) * dot2 (jump_n M eta f) (jump_n M eta f))
                + ds M (fun b => sqrt (h / g) * (unb M u b * unb M u b))))).
  2:{ split; [exact HE|]. rewrite HE.
      match goal with |- - (g * h * ?I) <= 0 => assert (0 <= I) end.
      2:{ assert (0 <= g * h * (dS M (fun f => sqrt (h / g) * (jump_vn M u f * jump_vn M u f)
                               + sqrt (g / h) * dot2 (jump_n M eta f) (jump_n M eta f))
                + ds M (fun b => sqrt (h / g) * (unb M u b * unb M u b)))).
          { apply Rmult_le_pos; [apply Rmult_le_pos; lra|exact H]. }
          lra. }
      apply Rplus_le_le_0_compat.
      - apply integral_nonneg; [apply pf, Hw|]. intros f _.
        pose proof (Rle_0_sqr (jump_vn M u f)) as H1. unfold Rsqr in H1.
        pose proof (dot2_self (jump_n M eta f)).
        apply Rplus_le_le_0_compat; apply Rmult_le_pos; try apply sqrt_pos; assumption.
      - apply integral_nonneg; [apply pb, Hw|]. intros b _.
        pose proof (Rle_0_sqr (unb M u b)) as H1. unfold Rsqr in H1.
        apply Rmult_le_pos; [apply sqrt_pos|exact H1]. }
  unfold pressure_gradient, hu_div. rewrite Hd, Hj.
  assert (P1 : dx M (fun p => s_v eta p * divv (scale_v h u) p)
               = h * dx M (fun p => s_v eta p * divv u p)).
  { unfold dx. rewrite <- integral_scal. apply integral_ext. intros p _.
    unfold divv, scale_v, scale_s, scal2; cbn. ring. }
  assert (P2 : dS M (fun f => (avg (s_f eta f) + sqrt (avg (hf E eta_old f) / g) * jump_vn M u f)
                              * jump_vn M (scale_v h u) f)
               = h * dS M (fun f => avg (s_f eta f) * jump_vn M u f)
                 + h * dS M (fun f => sqrt (h / g) * (jump_vn M u f * jump_vn M u f))).
  { unfold dS. rewrite <- !integral_scal, <- integral_plus. apply integral_ext. intros f _.
    assert (avg (hf E eta_old f) = h) as ->.
    { unfold avg, hf. rewrite !Hdep. apply half_plus. }
    unfold jump_vn at 2, scale_v, scale_s, vf, dot2; cbn [v_x v_y s_f fst snd].
    unfold jump_vn, vf, dot2; cbn [fst snd]. ring. }
  assert (P3 : ds M (fun b => match e_bnd E (m_marker M b) with
           | Open e =>
               let un_jump := dot2 (sub2 (vb u b) (uv_ext E e (s_b eta) (vb u) b)) (m_nb M b) in
               (0.5 * (s_b eta b + eta_ext e (s_b eta) b)
                + sqrt (hb E (s_b eta_old) b / g) * un_jump) * unb M (scale_v h u) b
           | Closed => (s_b eta b + sqrt (hb E (s_b eta_old) b / g) * unb M u b)
                       * unb M (scale_v h u) b end)
     = h * ds M (fun b => s_b eta b * unb M u b)
       + h * ds M (fun b => sqrt (h / g) * (unb M u b * unb M u b))).
  { unfold ds. rewrite <- !integral_scal, <- integral_plus. apply integral_ext. intros b _.
    rewrite (Hc (m_marker M b)). unfold hb. rewrite Hdep.
    unfold unb at 2, scale_v, scale_s, vb, dot2; cbn [v_x v_y s_b fst snd].
    unfold unb, vb, dot2; cbn [fst snd]. ring. }
  assert (P4 : dx M (fun p => dot2 (s_gv (scale_s g eta) p) (scal2 (hv E eta_old p) (vv u p)))
               = g * h * dx M (fun p => dot2 (vv u p) (s_gv eta p))).
  { unfold dx. rewrite <- integral_scal. apply integral_ext. intros p _.
    unfold hv. rewrite Hdep. unfold scale_s, scal2, dot2; cbn [s_gv fst snd]. ring. }
  assert (P5 : dS M (fun f =>
              let h0 := avg (hf E eta_old f) in
              let uv_rie := add2 (avg_v u f) (scal2 (sqrt (g / h0)) (jump_n M eta f)) in
              dot2 (jump_n M (scale_s g eta) f) (scal2 h0 uv_rie))
       = g * h * dS M (fun f => dot2 (jump_n M eta f) (avg_v u f))
         + g * h * dS M (fun f => sqrt (g / h) * dot2 (jump_n M eta f) (jump_n M eta f))).
  { unfold dS. rewrite <- !integral_scal, <- integral_plus. apply integral_ext. intros f _.
    assert (avg (hf E eta_old f) = h) as ->.
    { unfold avg, hf. rewrite !Hdep. apply half_plus. }
    cbv zeta. unfold scale_s, jump_n, dot2, add2, scal2; cbn [s_f fst snd]. ring. }
  assert (P6 : ds M (fun b => match e_bnd E (m_marker M b) with
           | Open e => hu_flux_b E u eta uv_old eta_old e b * s_b (scale_s g eta) b
           | Closed => 0 end) = 0).
  { apply integral_zero. intros b _. rewrite (Hc (m_marker M b)). reflexivity. }
  cbv zeta in P3, P5. rewrite P1, P2, P3, P4, P5, P6.
  unfold gauss_sv, gauss in Hga.
  assert (G1 : dx M (fun p => s_v eta p * divv u p) + dx M (fun p => dot2 (vv u p) (s_gv eta p))
     = dS M (fun f => avg (s_f eta f) * jump_vn M u f) + dS M (fun f => dot2 (jump_n M eta f) (avg_v u f))
       + ds M (fun b => s_b eta b * unb M u b)).
  { unfold dx at 1 2. rewrite <- integral_plus. unfold dx in Hga. rewrite Hga. f_equal.
    unfold dS. rewrite <- integral_plus. apply integral_ext. intros f _.
    unfold jump_n, jump_vn, avg_v, avg, normal, vf, dot2; cbn [fst snd].
    replace 0.5 with (1/2) by lra. field. }
  assert (G2 : dS M (fun f => sqrt (h / g) * (jump_vn M u f * jump_vn M u f)
                               + sqrt (g / h) * dot2 (jump_n M eta f) (jump_n M eta f))
     = dS M (fun f => sqrt (h / g) * (jump_vn M u f * jump_vn M u f))
       + dS M (fun f => sqrt (g / h) * dot2 (jump_n M eta f) (jump_n M eta f))).
  { apply integral_plus. }
  rewrite G2. 
  assert (G3 : dx M (fun p => s_v eta p * divv u p)
     = dS M (fun f => avg (s_f eta f) * jump_vn M u f) + dS M (fun f => dot2 (jump_n M eta f) (avg_v u f))
       + ds M (fun b => s_b eta b * unb M u b) - dx M (fun p => dot2 (vv u p) (s_gv eta p))) by lra.
  rewrite G3. ring.
Qed.

(* ------------------------------------------------------------------ *)
(** * Viscosity *)

(** Viscosity exchanges momentum between cells but creates none. *)
Theorem C49_viscosity_conserves_momentum : forall a b u eta eta_old,
  all_closed E -> e_grad_depth E = false ->
  viscosity E (const_v a b) u eta eta_old = 0.
Proof.
  intros a b u eta eta_old Hc Hd. unfold viscosity. destruct (e_nu E) as [nu|]; [|reflexivity].
  rewrite Hd.
  rewrite (dx_zero M).
  2:{ intros p _. unfold grad_v at 1; cbn [const_v v_x v_y const_s s_gv]. apply inner_t_zero_l. }
  destruct (e_u_jump E); [|ring].
  rewrite (dS_zero M).
  2:{ intros f _. rewrite tensor_jump_const, !inner_t_zero_l.
      rewrite (avg_t_zero (grad_f (const_v a b) f)); [rewrite inner_t_zero_l; ring|].
      intro s. reflexivity. }
  rewrite (ds_zero M).
  2:{ intros p _. rewrite (Hc (m_marker M p)). reflexivity. }
  ring.
Qed.

Lemma stress_lin : forall nu gr, stress_of E nu gr = scal_t nu (stress_of E 1 gr).
Proof.
  intros nu [[a b] [c d]]. unfold stress_of. destruct (e_grad_div E);
  unfold scal_t, sym_t, scal2; cbn [fst snd]; f_equal; f_equal; ring.
Qed.

Lemma inner_scal : forall k a b, inner_t a (scal_t k b) = k * inner_t a b.
Proof. intros. unfold inner_t, dot2, scal_t, scal2; cbn [fst snd]. ring. Qed.

Lemma stress_sym : forall a b, inner_t a (stress_of E 1 b) = inner_t b (stress_of E 1 a).
Proof.
  intros [[a1 a2] [a3 a4]] [[b1 b2] [b3 b4]]. unfold stress_of. destruct (e_grad_div E);
  unfold inner_t, dot2, scal_t, sym_t, scal2; cbn [fst snd]; ring.
Qed.

(** The viscous operator is symmetric if the viscosity is continuous. *)
Theorem C49_viscosity_symmetric : forall nu u v eta eta_old,
  e_nu E = Some nu -> (forall f, s_f nu f true = s_f nu f false) ->
  all_closed E -> e_grad_depth E = false ->
  viscosity E u v eta eta_old = viscosity E v u eta eta_old.
Proof.
  intros nu u v eta eta_old Hn Hnc Hc Hd. unfold viscosity. rewrite Hn, Hd.
  assert (H1 : dx M (fun p => inner_t (grad_v u p) (stress_of E (s_v nu p) (grad_v v p)))
             = dx M (fun p => inner_t (grad_v v p) (stress_of E (s_v nu p) (grad_v u p)))).
  { apply integral_ext. intros p _. rewrite (stress_lin _ (grad_v v p)), (stress_lin _ (grad_v u p)),
      !inner_scal, stress_sym. reflexivity. }
  rewrite H1. destruct (e_u_jump E); [|reflexivity]. f_equal. f_equal. f_equal. f_equal.
  - apply integral_ext. intros f _. cbv zeta. unfold avg, avg_t. rewrite <- (Hnc f), half_plus.
    set (n := s_f nu f true).
    assert (HA : forall w : vfield V F B, scal_t 0.5 (add_t (stress_of E n (grad_f w f true)) (stress_of E n (grad_f w f false)))
            = scal_t n (stress_of E 1 (scal_t 0.5 (add_t (grad_f w f true) (grad_f w f false))))).
    { intro w. destruct (grad_f w f true) as [[p1 p2] [p3 p4]], (grad_f w f false) as [[q1 q2] [q3 q4]].
      unfold stress_of. destruct (e_grad_div E);
      unfold scal_t, add_t, sym_t, scal2, add2; cbn [fst snd]; f_equal; f_equal; ring. }
    rewrite !HA.
    rewrite !(stress_lin n), !inner_scal.
    rewrite (stress_sym (tensor_jump E u f) (tensor_jump E v f)).
    rewrite (stress_sym (scal_t 0.5 (add_t (grad_f u f true) (grad_f u f false))) (tensor_jump E v f)).
    rewrite (stress_sym (scal_t 0.5 (add_t (grad_f v f true) (grad_f v f false))) (tensor_jump E u f)).
    ring.
  - apply integral_ext. intros b _. rewrite (Hc (m_marker M b)). reflexivity.
Qed.

(** ... and only removes energy, once the penalty dominates the mean gradients at
    the facets (always so for P0). *)
Definition mean_grad (u : vfield V F B) (f : F) : tensor := avg_t (grad_f u f).

Lemma stress_pos : forall a, 0 <= inner_t a (stress_of E 1 a).
Proof.
  intros [[a1 a2] [a3 a4]]. unfold stress_of. destruct (e_grad_div E);
  unfold inner_t, dot2, scal_t, sym_t, scal2; cbn [fst snd].
  - pose proof (Rle_0_sqr a1) as H1; pose proof (Rle_0_sqr a4) as H2;
    pose proof (Rle_0_sqr (a2 + a3)) as H3; unfold Rsqr in *. lra.
  - pose proof (Rle_0_sqr a1) as H1; pose proof (Rle_0_sqr a2) as H2;
    pose proof (Rle_0_sqr a3) as H3; pose proof (Rle_0_sqr a4) as H4; unfold Rsqr in *. lra.
Qed.

Theorem C49_viscosity_dissipates : forall nu u eta eta_old,
  positive_weights M -> e_nu E = Some nu ->
  (forall p, 0 <= s_v nu p) -> (forall f s, 0 <= s_f nu f s) ->
  (forall f, s_f nu f true = s_f nu f false) ->
  all_closed E -> e_grad_depth E = false ->
  (forall f, In f (m_facets M) -> 0 < sigma_max E f) ->
  (e_u_jump E = true ->
   dS M (fun f => s_f nu f true * inner_t (mean_grad u f) (stress_of E 1 (mean_grad u f))
                  / sigma_max E f)
   <= dx M (fun p => s_v nu p * inner_t (grad_v u p) (stress_of E 1 (grad_v u p)))) ->
  viscosity E u u eta eta_old <= 0.
Proof.
  intros nu u eta eta_old Hw Hn Hv Hf Hnc Hc Hd Hs Hpen. unfold viscosity. rewrite Hn, Hd.
  assert (H1 : dx M (fun p => inner_t (grad_v u p) (stress_of E (s_v nu p) (grad_v u p)))
             = dx M (fun p => s_v nu p * inner_t (grad_v u p) (stress_of E 1 (grad_v u p)))).
  { apply integral_ext. intros p _. rewrite (stress_lin (s_v nu p)), inner_scal. reflexivity. }
  rewrite H1. destruct (e_u_jump E).
  2:{ assert (0 <= dx M (fun p => s_v nu p * inner_t (grad_v u p) (stress_of E 1 (grad_v u p)))); [|lra].
      apply integral_nonneg; [apply pw, Hw|]. intros p _.
      apply Rmult_le_pos; [apply Hv|apply stress_pos]. }
  rewrite (ds_zero M).
  2:{ intros p _. rewrite (Hc (m_marker M p)). reflexivity. }
  match goal with |- - (_ + (?I + 0) + 0) <= 0 =>
    assert (HI : - dS M (fun f => s_f nu f true * inner_t (mean_grad u f) (stress_of E 1 (mean_grad u f))
                  / sigma_max E f) <= I) end.
  2:{ specialize (Hpen eq_refl). lra. }
  unfold dS. rewrite <- integral_opp. apply integral_le; [apply pf, Hw|]. intros f Hin.
  specialize (Hs f Hin). specialize (Hf f true). fold (mean_grad u f).
  unfold avg. rewrite <- (Hnc f), half_plus.
  set (n := s_f nu f true) in *.
  assert (HA : avg_t (fun s => stress_of E (s_f nu f s) (grad_f u f s))
          = scal_t n (stress_of E 1 (mean_grad u f))).
  { unfold mean_grad, avg_t. rewrite <- (Hnc f). fold n.
    destruct (grad_f u f true) as [[p1 p2] [p3 p4]], (grad_f u f false) as [[q1 q2] [q3 q4]].
      unfold stress_of. destruct (e_grad_div E);
      unfold scal_t, add_t, sym_t, scal2, add2; cbn [fst snd]; f_equal; f_equal; ring. }
  rewrite HA, !(stress_lin n), !inner_scal.
  rewrite (stress_sym (mean_grad u f) (tensor_jump E u f)).
  set (D := mean_grad u f). set (J := tensor_jump E u f). set (k := sigma_max E f) in *.
  pose proof (stress_pos (add_t (scal_t k J) (scal_t (-1) D))) as HP.
  assert (HQ : inner_t (add_t (scal_t k J) (scal_t (-1) D))
                 (stress_of E 1 (add_t (scal_t k J) (scal_t (-1) D)))
               = k * k * inner_t J (stress_of E 1 J) - 2 * k * inner_t J (stress_of E 1 D)
                 + inner_t D (stress_of E 1 D)).
  { destruct J as [[j1 j2] [j3 j4]], D as [[d1 d2] [d3 d4]].
    unfold stress_of. destruct (e_grad_div E);
    unfold inner_t, dot2, scal_t, add_t, sym_t, scal2, add2; cbn [fst snd];
    replace 0.5 with (1/2) by lra; field. }
  rewrite HQ in HP.
  set (a := inner_t J (stress_of E 1 J)) in *. set (b := inner_t J (stress_of E 1 D)) in *.
  set (d := inner_t D (stress_of E 1 D)) in *.
  assert (Hk : 0 <= n / k * (k * k * a - 2 * k * b + d)).
  { apply Rmult_le_pos; [|exact HP]. unfold Rdiv. apply Rmult_le_pos; [exact Hf|].
    apply Rlt_le, Rinv_0_lt_compat, Hs. }
  assert (He : n / k * (k * k * a - 2 * k * b + d) = k * (n * a) - n * b - n * b + n * d / k).
  { field. lra. }
  rewrite He in Hk. lra.
Qed.
End SWE.
