(** Further theorems that came out of testing the model against wrong programs: static balances
    and the Manning formula of the shallow water terms (C49), tracer sources (C50), the shipped
    GOTM parameter sets (C39) and vector fields on the sphere (C62). *)
From Coq Require Import Reals List Bool Lra Lia String.
From Verif Require Import Forms_Model Forms_Spec Forms_Proofs Forms_Examples P_SWE Stability_Model P_Stability
  Forcing_Model P_Forcing P_Forcing2 P_Nonhydro.
Import ListNotations.
Open Scope string_scope.
Open Scope R_scope.
Open Scope list_scope.

Section Static.
Context {V F B : Type}.
Variable E : swe_env V F B.
Notation M := (e_mesh E).
Notation ZV := (zero_v : vfield V F B).

(** elevation without jumps across facets *)
Definition single_valued (eta : sfield V F B) : Prop :=
  forall f, In f (m_facets M) -> s_f eta f true = s_f eta f false.

(** Force per unit mass on water at rest: surface slope, wind stress spread over the depth,
    pressure of the air and the momentum source. *)
Definition static_force (eta : sfield V F B) (p : V) : R * R :=
  let wind := match e_wind E with Some t => scal2 (/ (e_rho0 E * hv E eta p)) (t p) | None => (0, 0) end in
  let air := match e_patm_grad E with Some gp => scal2 (- / e_rho0 E) (gp p) | None => (0, 0) end in
  let src := match e_msource E with Some t => t p | None => (0, 0) end in
  add2 (add2 (scal2 (- e_g E) (s_gv eta p)) wind) (add2 air src).

Lemma pressure_at_rest : forall eta psi, all_closed E -> single_valued eta -> gauss_sv M eta psi ->
  pressure_gradient E psi ZV eta eta = dx M (fun p => - e_g E * dot2 (s_gv eta p) (vv psi p)).
Proof.
  intros eta psi C J G. unfold pressure_gradient. unfold all_closed in C.
  assert (JZ : forall f, jump_vn M ZV f = 0).
  { intro f. unfold jump_vn, zero_v, const_v, vf, dot2, normal. cbn [v_x v_y const_s s_f fst snd]. ring. }
  destruct (e_eta_dg E).
  - assert (A1 : dS M (fun f => (avg (s_f eta f) + sqrt (avg (hf E eta f) / e_g E) * jump_vn M ZV f) * jump_vn M psi f)
          = dS M (fun f => s_f eta f true * dot2 (vf psi f true) (normal M f true) + s_f eta f false * dot2 (vf psi f false) (normal M f false))).
    { apply integral_ext. intros f Hf. rewrite JZ. specialize (J f Hf). unfold jump_vn, avg. rewrite J. lra. }
    rewrite A1.
    match goal with |- context [ds M ?f] => assert (A2 : ds M f = ds M (fun b => s_b eta b * unb M psi b)) end.
    { apply integral_ext. intros b _. rewrite C. replace (unb M ZV b) with 0; [ring|].
        unfold unb, zero_v, const_v, vb, dot2. cbn [v_x v_y const_s s_b fst snd]. ring. }
    rewrite A2. unfold gauss_sv, gauss in G. unfold dx in G |- *. rewrite integral_plus in G. rewrite integral_scal.
    rewrite (integral_ext (m_cells M) (m_wv M) (fun p => dot2 (s_gv eta p) (vv psi p)) (fun p => dot2 (vv psi p) (s_gv eta p)))
      by (intros; apply dot2_comm).
    unfold ds in *.
    set (a := integral (m_cells M) (m_wv M) (fun p => s_v eta p * divv psi p)) in *.
    set (b := integral (m_cells M) (m_wv M) (fun p => dot2 (vv psi p) (s_gv eta p))) in *.
    match goal with |- context [dS M ?f] => set (c := dS M f) in * end.
    match goal with |- context [integral (m_bnds M) ?w ?f] => set (d := integral (m_bnds M) w f) in * end.
    replace b with (c + d - a) by lra. ring.
  - rewrite ds_zero. 2:{ intros b _. rewrite C. reflexivity. }
    unfold dx. rewrite integral_scal. ring.
Qed.

Lemma advection_at_rest : forall eta psi, all_closed E -> advection E psi ZV eta ZV eta = 0.
Proof.
  intros eta psi C. unfold advection. unfold all_closed in C. destruct (e_nonlinear E); [|reflexivity].
  rewrite (dx_zero M). 2:{ intros p _. rewrite vv_zero. apply dot2_zero_l. }
  assert (Z : forall g : B -> (@extern B) -> R, ds M (fun b => match e_bnd E (m_marker M b) with Closed => 0 | Open e => g b e end) = 0).
  { intro g. apply ds_zero. intros b _. rewrite C. reflexivity. }
  destruct (e_u_jump E).
  - rewrite (dS_zero M). 2:{ intros f _. rewrite avg_v_zero. apply dot2_zero_l. }
    rewrite Z. destruct (e_lax E) as [lf|]; [|ring].
    rewrite (dS_zero M). 2:{ intros f _. unfold jump; cbn. ring. }
    rewrite (ds_zero M). 2:{ intros b _. rewrite C, unb_zero, Rabs_R0. ring. }
    ring.
  - rewrite Z. ring.
Qed.
Lemma viscosity_at_rest : forall eta psi, all_closed E -> viscosity E psi ZV eta eta = 0.
Proof.
  intros eta psi C. unfold viscosity. unfold all_closed in C. destruct (e_nu E) as [nu|]; [|reflexivity].
  rewrite (dx_zero M).
  2:{ intros p _. unfold grad_v at 2; cbn [zero_v const_v v_x v_y const_s s_gv]. rewrite stress_zero. apply inner_t_zero_r. }
  assert (Z : forall g : B -> (@extern B) -> R, ds M (fun b => match e_bnd E (m_marker M b) with Closed => 0 | Open e => g b e end) = 0).
  { intro g. apply ds_zero. intros b _. rewrite C. reflexivity. }
  rewrite Z.
  assert (H0 : (if e_grad_depth E then
              dx M (fun p => - dot2 (vv psi p) (vec_t (scal2 (/ hv E eta p) (e_grad_h E p)) (stress_of E (s_v nu p) (grad_v ZV p))))
            else 0) = 0).
  { destruct (e_grad_depth E); [|reflexivity]. apply integral_zero. intros p _.
    unfold grad_v; cbn [zero_v const_v v_x v_y const_s s_gv]. rewrite stress_zero, vec_t_zero, dot2_zero_r. ring. }
  rewrite H0. destruct (e_u_jump E); [|ring].
  rewrite (dS_zero M).
  2:{ intros f _. unfold zero_v. rewrite tensor_jump_const, stress_zero, !inner_t_zero_r. cbv zeta.
      rewrite avg_t_zero.
      2:{ intro s. unfold grad_f; cbn [const_v v_x v_y const_s s_gf]. apply stress_zero. }
      rewrite !inner_t_zero_r. ring. }
  ring.
Qed.

(** Water at rest in a closed basin is accelerated by exactly these forces, whatever the drag,
    viscosity, Coriolis and turbine settings. *)
Theorem C49_static_force : forall eta psi r,
  all_closed E -> single_valued eta -> gauss_sv M eta psi -> e_rho0 E <> 0 ->
  (forall p, In p (m_cells M) -> hv E eta p <> 0) -> e_drag3d E = None ->
  momentum_residual E psi ZV eta ZV eta = Some r ->
  r = dx M (fun p => dot2 (static_force eta p) (vv psi p)).
Proof.
  intros eta psi r C J G R0 H0 D3 Hr. unfold momentum_residual in Hr.
  destruct (quadratic_drag E psi ZV ZV eta) as [qd|] eqn:Eq; [|discriminate].
  apply someinj in Hr; subst r. rewrite pressure_at_rest, advection_at_rest, viscosity_at_rest by assumption.
  assert (coriolis E psi ZV = 0) as ->.
  { unfold coriolis. destruct (e_coriolis E); [|reflexivity].
    rewrite dx_zero; [ring|]. intros p _. rewrite vv_zero; cbn [fst snd]. ring. }
  assert (qd = 0) as ->.
  { unfold quadratic_drag in Eq. destruct (drag_coefficient E eta) as [[cd|]|];
    [| |discriminate]; apply someinj in Eq; subst qd; [|reflexivity].
    rewrite dx_zero; [ring|]. intros p _. rewrite vv_zero, (dot2_zero_r (vv psi p)). unfold Rdiv; ring. }
  assert (linear_drag E psi ZV = 0) as ->.
  { unfold linear_drag. destruct (e_linear E); [|reflexivity].
    rewrite dx_zero; [ring|]. intros p _. rewrite vv_zero, dot2_zero_r. ring. }
  assert (boundary_drag E psi ZV ZV = 0) as ->.
  { unfold boundary_drag. rewrite ds_zero; [ring|]. intros b _.
    destruct (e_drag_b E (m_marker M b)); [|reflexivity]. cbv zeta.
    rewrite unb_zero, vb_zero.
    assert (sub2 (0, 0) (scal2 0 (m_nb M b)) = (0, 0)) as ->.
    { unfold sub2, scal2; cbn [fst snd]; f_equal; ring. }
    rewrite (dot2_zero_r (vb psi b)). ring. }
  assert (bottom_drag_3d E psi eta = 0) as -> by (unfold bottom_drag_3d; rewrite D3; reflexivity).
  assert (turbine_drag E psi ZV ZV eta = 0) as ->.
  { unfold turbine_drag. induction (e_farms E) as [|[[[pts w] den] ct] l IH]; cbn [fold_right];
    [ring|]. rewrite integral_zero; [lra|]. intros p _.
    rewrite !vv_zero, (dot2_zero_r (vv psi p)). unfold Rdiv; ring. }
  assert (W : wind E psi eta = dx M (fun p => dot2 (match e_wind E with Some t => scal2 (/ (e_rho0 E * hv E eta p)) (t p) | None => (0, 0) end) (vv psi p))).
  { unfold wind. destruct (e_wind E) as [t|].
    - apply integral_ext. intros p Hp. specialize (H0 p Hp). unfold dot2, scal2. cbn [fst snd]. field. split; assumption.
    - symmetry. apply dx_zero. intros p _. apply dot2_zero_l. }
  assert (A : atmospheric E psi = dx M (fun p => dot2 (match e_patm_grad E with Some gp => scal2 (- / e_rho0 E) (gp p) | None => (0, 0) end) (vv psi p))).
  { unfold atmospheric. destruct (e_patm_grad E) as [t|].
    - unfold dx. rewrite <- integral_opp. apply integral_ext. intros p Hp. unfold dot2, scal2. cbn [fst snd]. field. assumption.
    - symmetry. apply dx_zero. intros p _. apply dot2_zero_l. }
  assert (S : momentum_source E psi = dx M (fun p => dot2 (match e_msource E with Some t => t p | None => (0, 0) end) (vv psi p))).
  { unfold momentum_source. destruct (e_msource E) as [t|]; [reflexivity|].
    symmetry. apply dx_zero. intros p _. apply dot2_zero_l. }
  rewrite W, A, S.
  transitivity (dx M (fun p => - e_g E * dot2 (s_gv eta p) (vv psi p))
    + dx M (fun p => dot2 (match e_wind E with Some t => scal2 (/ (e_rho0 E * hv E eta p)) (t p) | None => (0, 0) end) (vv psi p))
    + dx M (fun p => dot2 (match e_patm_grad E with Some gp => scal2 (- / e_rho0 E) (gp p) | None => (0, 0) end) (vv psi p))
    + dx M (fun p => dot2 (match e_msource E with Some t => t p | None => (0, 0) end) (vv psi p))); [lra|].
  unfold dx. rewrite <- !integral_plus. apply integral_ext. intros p _. unfold static_force, dot2, add2, scal2. cbn [fst snd]. ring.
Qed.

(** So a surface slope in balance with the air pressure (the inverse barometer, no wind) ... *)
Theorem C49_inverse_barometer : forall eta psi r gp,
  all_closed E -> single_valued eta -> gauss_sv M eta psi -> e_rho0 E <> 0 ->
  (forall p, In p (m_cells M) -> hv E eta p <> 0) -> e_drag3d E = None ->
  e_wind E = None -> e_msource E = None -> e_patm_grad E = Some gp ->
  (forall p, In p (m_cells M) -> scal2 (e_rho0 E * e_g E) (s_gv eta p) = scal2 (-1) (gp p)) ->
  momentum_residual E psi ZV eta ZV eta = Some r -> r = 0.
Proof.
  intros eta psi r gp C J G R0 H0 D3 W S A B0 Hr. rewrite (C49_static_force eta psi r) by assumption.
  apply dx_zero. intros p Hp. unfold static_force. rewrite W, S, A. specialize (B0 p Hp). unfold scal2 in B0.
  pose proof (f_equal fst B0) as B1. pose proof (f_equal snd B0) as B2. cbn [fst snd] in B1, B2.
  unfold dot2, add2, scal2. cbn [fst snd].
  replace (fst (gp p)) with (- (e_rho0 E * e_g E * fst (s_gv eta p))) by lra.
  replace (snd (gp p)) with (- (e_rho0 E * e_g E * snd (s_gv eta p))) by lra. field. exact R0.
Qed.
(** ... or with the wind stress (wind set-up) stays at rest. *)
Theorem C49_wind_setup : forall eta psi r t,
  all_closed E -> single_valued eta -> gauss_sv M eta psi -> e_rho0 E <> 0 ->
  (forall p, In p (m_cells M) -> hv E eta p <> 0) -> e_drag3d E = None ->
  e_wind E = Some t -> e_msource E = None -> e_patm_grad E = None ->
  (forall p, In p (m_cells M) -> scal2 (e_rho0 E * e_g E * hv E eta p) (s_gv eta p) = t p) ->
  momentum_residual E psi ZV eta ZV eta = Some r -> r = 0.
Proof.
  intros eta psi r t C J G R0 H0 D3 W S A B0 Hr. rewrite (C49_static_force eta psi r) by assumption.
  apply dx_zero. intros p Hp. unfold static_force. rewrite W, S, A. specialize (B0 p Hp). specialize (H0 p Hp).
  rewrite <- B0. unfold dot2, add2, scal2. cbn [fst snd]. field. split; assumption.
Qed.

(** Manning's formula: a flow of speed h^(2/3) sqrt(S) / n feels the friction g S against its
    direction (no velocity smoothing). *)
Theorem C49_manning_formula : forall u eta psi mu S d r,
  e_manning E = Some mu -> e_quad E = None -> e_nikuradse E = None -> e_smoother E = 0 -> e_g E <> 0 -> 0 <= S ->
  dot2 d d = 1 ->
  (forall p, In p (m_cells M) -> 0 < mu p /\ 0 < hv E eta p /\
     vv u p = scal2 (Rpower (hv E eta p) (2 / 3) * sqrt S / mu p) d) ->
  quadratic_drag E psi u u eta = Some r ->
  r = dx M (fun p => - (e_g E * S) * dot2 (vv psi p) d).
Proof.
  intros u eta psi mu S d r Hm Hq Hn Hs G0 S0 HD HU Hr.
  unfold quadratic_drag, drag_coefficient in Hr. rewrite Hm, Hq, Hn, Hs in Hr. apply someinj in Hr. subst r.
  unfold dx. rewrite <- integral_opp. apply integral_ext. intros p Hp.
  destruct (HU p Hp) as (M0 & H0 & U). rewrite U.
  set (h := hv E eta p) in *. set (k := Rpower h (2 / 3) * sqrt S / mu p).
  assert (K0 : 0 <= k). { unfold k. apply Rmult_le_pos; [|apply Rlt_le, Rinv_0_lt_compat, M0]. apply Rmult_le_pos; [apply Rlt_le, exp_pos|apply sqrt_pos]. }
  replace (dot2 (scal2 k d) (scal2 k d) + 0 * 0) with (k * k).
  2:{ unfold dot2, scal2 in *. cbn [fst snd] in *. replace (k * fst d * (k * fst d) + k * snd d * (k * snd d) + 0 * 0) with (k * k * (fst d * fst d + snd d * snd d)) by ring. rewrite HD. ring. }
  rewrite sqrt_square by exact K0.
  replace (dot2 (vv psi p) (scal2 k d)) with (k * dot2 (vv psi p) d) by (unfold dot2, scal2; cbn [fst snd]; ring).
  assert (P : Rpower h (2 / 3) * Rpower h (2 / 3) = Rpower h (1 / 3) * h).
  { rewrite <- Rpower_plus. rewrite <- (Rpower_1 h H0) at 3. rewrite <- Rpower_plus. f_equal. lra. }
  assert (SS : sqrt S * sqrt S = S) by (apply sqrt_sqrt; exact S0).
  pose proof (exp_pos (1 / 3 * ln h)) as R1. fold (Rpower h (1 / 3)) in R1.
  replace (e_g E * (mu p * mu p) / Rpower h (1 / 3) * k * (k * dot2 (vv psi p) d) / h)
    with (e_g E * (Rpower h (2/3) * Rpower h (2/3)) * (sqrt S * sqrt S) / (Rpower h (1/3) * h) * dot2 (vv psi p) d).
  2:{ unfold k. field. repeat split; lra. }
  rewrite P, SS. field. split; lra.
Qed.
End Static.

(** A basin under an air pressure that falls by 1 hPa per 0.01 m rise of the water, with wind or
    without, satisfies the hypotheses. *)
Definition barometer_env (wind patm : option (nat -> R * R)) : swe_env nat nat nat :=
  mk_env two_cells 10 1000 (fun b e => b + e) (fun _ => 10) (fun _ _ => 10) (fun _ => 10)
    (fun _ => 1) (fun _ => Closed) (fun _ => None) true true true (Some 1) (Some (affine (fun _ => 1) (fun _ => 0) (fun _ => 0)))
    false false (fun _ _ => 4) (fun _ => 4) (fun _ => (0, 0))
    (Some (fun _ => 1 / 10000)) wind patm None (Some (fun _ => 1 / 50)) None 0.4 0
    None None None None [].
Example ex_barometer : let E := barometer_env None (Some (fun _ => (-100, 0))) in let eta := lin 0 0.01 in
  all_closed E /\ single_valued E eta /\ (forall a b, gauss_sv (e_mesh E) eta (mk_vf (p0 a) (p0 b))) /\
  (forall p, In p (m_cells (e_mesh E)) -> hv E eta p <> 0) /\
  (forall p, scal2 (e_rho0 E * e_g E) (s_gv eta p) = scal2 (-1) (-100, 0)) /\
  exists r, momentum_residual E (mk_vf (p0 (two 1 2)) (p0 (two 3 4))) zero_v eta zero_v eta = Some r.
Proof.
  cbv zeta. split; [intro k; reflexivity|]. split; [|split; [|split; [|split]]].
  - intros f _. unfold lin, affine, two. cbn [s_f]. field.
  - intros a b. unfold gauss_sv, gauss, dx, dS, ds, integral, divv, unb, dot2, vf, vb, vv, normal.
    cbn -[Rplus Rmult Rminus Rdiv Ropp IZR]. unfold p0, affine, edge; cbn -[Rplus Rmult Rminus Rdiv Ropp IZR]. lra.
  - intros p [<-|[<-|[]]]; unfold hv, lin, affine, two; cbn [e_depth e_bath_v barometer_env s_v]; lra.
  - intro p. unfold scal2, lin, affine. cbn [e_rho0 e_g barometer_env s_gv fst snd]. f_equal; lra.
  - eexists. reflexivity.
Qed.
Example ex_setup : let E := barometer_env (Some (fun p => (1000 * (10 + two (-0.005) 0.005 p) / 10, 0))) None in
  forall p, In p (m_cells (e_mesh E)) ->
    scal2 (e_rho0 E * e_g E * hv E (lin 0 0.01) p) (s_gv (lin 0 0.01) p) = (1000 * (10 + two (-0.005) 0.005 p) / 10, 0).
Proof.
  cbv zeta. intros p [<-|[<-|[]]]; unfold hv, lin, affine, two, scal2; cbn [e_depth e_bath_v e_rho0 e_g barometer_env s_v s_gv fst snd]; f_equal; lra.
Qed.

(** The source of the conservative tracer equation is that of the plain one times the depth: a
    source raises the concentration equally in both. *)
Theorem C50_conservative_source : forall {V F B : Type} (E : swe_env V F B) (T : tracer_env V F B) phi hphi elev,
  (forall p, In p (m_cells (e_mesh E)) -> s_v hphi p = hv E elev p * s_v phi p) ->
  cons_source E T phi elev = tracer_source E T hphi.
Proof.
  intros V F B E T phi hphi elev H. unfold cons_source, tracer_source. destruct (t_source T) as [s|]; [|reflexivity].
  f_equal. f_equal. apply integral_ext. intros p Hp. rewrite (H p Hp). ring.
Qed.
(** and its total is the integral of depth times source *)
Theorem C50_source_budget : forall {V F B : Type} (E : swe_env V F B) (T : tracer_env V F B) elev s,
  t_source T = Some s ->
  cons_source E T (const_s 1) elev = dx (e_mesh E) (fun p => hv E elev p * s p) /\
  tracer_source E T (const_s 1) = dx (e_mesh E) s.
Proof.
  intros V F B E T elev s H. unfold cons_source, tracer_source. rewrite H, !Ropp_involutive.
  split; apply integral_ext; intros p _; cbn [const_s s_v]; ring.
Qed.

(** The GOTM parameter sets are those of the Canuto and Cheng classes to three digits. *)
Definition close_lambdas (e : R) (a b : lambdas) : Prop :=
  Rabs (l1 a - l1 b) <= e /\ Rabs (l2 a - l2 b) <= e /\ Rabs (l3 a - l3 b) <= e /\ Rabs (l4 a - l4 b) <= e /\
  Rabs (l5 a - l5 b) <= e /\ Rabs (l6 a - l6 b) <= e /\ Rabs (l7 a - l7 b) <= e /\ Rabs (l8 a - l8 b) <= e.
Theorem C39_gotm_parameters :
  close_lambdas 0.001 (lambdas_of_gotm gotm_canutoA) canutoA /\
  close_lambdas 0.001 (lambdas_of_gotm gotm_canutoB) canutoB /\
  close_lambdas 0.001 (lambdas_of_gotm gotm_cheng) cheng.
Proof.
  unfold close_lambdas, lambdas_of_gotm, gotm_canutoA, gotm_canutoB, gotm_cheng, gotm_params, canutoA, canutoB, cheng.
  cbn [l1 l2 l3 l4 l5 l6 l7 l8 ga1 ga2 ga3 ga5 gab1 gab2 gab3 gab5 gnn gnb].
  repeat split; apply Rabs_le; split; lra.
Qed.

(** On the sphere the vector field of a generic interpolator receives three components. *)
Theorem C62_generic_sphere : forall names e n fu fv fw val f,
  exists f', set_generic names (Some [e; n]) 3 [fu; fv; fw] val f = Done f' /\
    forall i, gf_vector f' i 0%nat = fu i (val e i) (val n i) /\
              gf_vector f' i 1%nat = fv i (val e i) (val n i) /\
              gf_vector f' i 2%nat = fw i (val e i) (val n i).
Proof.
  intros names e n fu fv fw val f.
  set (all := read_names names (Some [e; n])).
  assert (HE : In e all) by (unfold all, read_names; apply in_or_app; right; left; reflexivity).
  assert (HN : In n all) by (unfold all, read_names; apply in_or_app; right; right; left; reflexivity).
  destruct (index_of_nth e all HE) as (ie & E1 & E2 & E3).
  destruct (index_of_nth n all HN) as (jn & N1 & N2 & N3).
  unfold set_generic. cbv zeta. fold all. cbn [map]. rewrite E1, N1. cbn [Nat.eqb].
  rewrite !nth_map_val by assumption. rewrite E3, N3.
  eexists. split; [reflexivity|]. cbn [gf_vector]. intro i.
  rewrite set_component_same. rewrite !set_component_other by discriminate. rewrite !set_component_same.
  rewrite !set_component_other by discriminate. rewrite set_component_same. auto.
Qed.
Print Assumptions C49_static_force.
Print Assumptions C49_inverse_barometer.
Print Assumptions C49_wind_setup.
Print Assumptions C49_manning_formula.
Print Assumptions C50_conservative_source.
Print Assumptions C50_source_budget.
Print Assumptions C39_gotm_parameters.
Print Assumptions C62_generic_sphere.
