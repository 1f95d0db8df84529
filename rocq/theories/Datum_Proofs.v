(** C93: lemmas about the level of reference. *)
From Coq Require Import Reals List Bool Lra Lia FunctionalExtensionality.
From Verif Require Import Forms_Model Forms_Spec Forms_Proofs Galerkin_Model Galerkin_Proofs Frame_Proofs Datum_Spec.
Import ListNotations.
Open Scope R_scope.

Section Datum.
Context {V F B : Type}.
Variable c : R.
Variable E : swe_env V F B.
Hypothesis HE : surface_depth E.
Notation E' := (datum_env c E).
Notation M := (e_mesh E).
Notation up := (lift_s c).
Implicit Types (psi uv uv_old : vfield V F B) (phi eta eta_old : sfield V F B).

Lemma datum_hv : forall eta, hv E' (up eta) = hv E eta.
Proof. intro eta. apply functional_extensionality; intro p. apply HE. Qed.
Lemma datum_hf : forall eta, hf E' (up eta) = hf E eta.
Proof. intro eta. apply functional_extensionality; intro f. apply functional_extensionality; intro s. apply HE. Qed.
Lemma datum_eta_ext : forall e (h : B -> R), eta_ext (lift_ext c e) (fun b => h b + c) = fun b => eta_ext e h b + c.
Proof. intros e h. apply functional_extensionality; intro b. unfold eta_ext; cbn [lift_ext ex_eta]. destruct (ex_eta e); reflexivity. Qed.
Lemma datum_hb : forall h : B -> R, hb E' (fun b => h b + c) = hb E h.
Proof. intro h. apply functional_extensionality; intro b. apply HE. Qed.
Lemma datum_uv_ext : forall e (h : B -> R) u, uv_ext E' (lift_ext c e) (fun b => h b + c) u = uv_ext E e h u.
Proof.
  intros e h u. apply functional_extensionality; intro b. unfold uv_ext; cbn [lift_ext ex_uv].
  rewrite datum_eta_ext. rewrite (datum_hb (fun b => eta_ext e h b)). destruct (ex_uv e); reflexivity.
Qed.
Lemma datum_s_b : forall eta, s_b (up eta) = fun b => s_b eta b + c.
Proof. reflexivity. Qed.

Lemma integral_ext' {X} : forall (l : list X) w g h, (forall x, g x = h x) -> integral l w g = integral l w h.
Proof. intros. apply integral_ext. intros; auto. Qed.

Lemma jump_n_lift : forall eta f, jump_n M (up eta) f = jump_n M eta f.
Proof. intros eta f. unfold jump_n, normal; cbn [lift_s s_f fst snd]. f_equal; ring. Qed.
Lemma avg_lift : forall (g : bool -> R), avg (fun s => g s + c) = avg g + c.
Proof. intro g. unfold avg. lra. Qed.

Lemma datum_pressure : forall psi uv eta eta_old, (e_eta_dg E = true -> gauss_v M psi) ->
  pressure_gradient E' psi uv (up eta) (up eta_old) = pressure_gradient E psi uv eta eta_old.
Proof.
  intros psi uv eta eta_old HG. unfold pressure_gradient.
  cbn [datum_env e_eta_dg e_mesh e_g e_bnd]. destruct (e_eta_dg E).
  - specialize (HG eq_refl). unfold gauss_v, gauss in HG.
    rewrite datum_hf, !datum_s_b, datum_hb.
    assert (A : dx M (fun p => s_v (up eta) p * divv psi p) = dx M (fun p => s_v eta p * divv psi p) + c * dx M (divv psi)).
    { apply integral_lin. intros p _. cbn [lift_s s_v]. ring. }
    assert (D : dS M (fun f => (avg (s_f (up eta) f) + sqrt (avg (hf E eta_old f) / e_g E) * jump_vn M uv f) * jump_vn M psi f)
                = dS M (fun f => (avg (s_f eta f) + sqrt (avg (hf E eta_old f) / e_g E) * jump_vn M uv f) * jump_vn M psi f)
                  + c * dS M (fun f => dot2 (vf psi f true) (normal M f true) + dot2 (vf psi f false) (normal M f false))).
    { apply integral_lin. intros f _. change (s_f (up eta) f) with (fun s => s_f eta f s + c). rewrite avg_lift. unfold jump_vn. ring. }
    rewrite A, D, HG. clear A D.
    match goal with |- - (_ + _ + e_g E * ds M ?k) = - (_ + _ + e_g E * ds M ?h) =>
      assert (Q : ds M k = ds M h + c * ds M (unb M psi)) end.
    { apply integral_lin. intros b _. destruct (e_bnd E (m_marker M b)) as [|e]; cbn [lift_bnd]; cbv zeta.
      - ring.
      - rewrite datum_eta_ext, datum_uv_ext. replace 0.5 with (/ 2) by lra. field. }
    rewrite Q. ring.
  - f_equal. f_equal. f_equal. apply integral_ext'. intro b. destruct (e_bnd E (m_marker M b)) as [|e]; cbn [lift_bnd]; [reflexivity|].
    cbv zeta. rewrite !datum_s_b, datum_eta_ext, datum_uv_ext, datum_hb. f_equal. replace 0.5 with (/ 2) by lra. field.
Qed.

Lemma datum_flux_b : forall uv eta uv_old eta_old e b,
  hu_flux_b E' uv (up eta) uv_old (up eta_old) (lift_ext c e) b = hu_flux_b E uv eta uv_old eta_old e b.
Proof.
  intros uv eta uv_old eta_old e b. unfold hu_flux_b. cbv zeta. rewrite !datum_s_b, !datum_eta_ext, !datum_uv_ext, !datum_hb.
  cbn [datum_env e_mesh e_g e_depth e_bath_b].
  change (fun b0 => eta_ext e (s_b eta_old) b0) with (eta_ext e (s_b eta_old)).
  set (hav := 0.5 * (hb E _ b + hb E _ b)). set (uj := dot2 (sub2 _ _) _).
  replace (0.5 * (s_b eta_old b + c + (eta_ext e (s_b eta_old) b + c)) + sqrt (hav / e_g E) * uj)
    with (0.5 * (s_b eta_old b + eta_ext e (s_b eta_old) b) + sqrt (hav / e_g E) * uj + c) by lra.
  rewrite HE.
  replace (s_b eta b + c - (eta_ext e (s_b eta) b + c)) with (s_b eta b - eta_ext e (s_b eta) b) by ring. reflexivity.
Qed.

Lemma datum_hu_div : forall phi uv eta uv_old eta_old dh,
  hu_div E' phi uv (up eta) uv_old (up eta_old) dh = hu_div E phi uv eta uv_old eta_old dh.
Proof.
  intros phi uv eta uv_old eta_old dh. unfold hu_div. rewrite datum_hv, datum_hf, !datum_s_b, datum_hb.
  cbn [datum_env e_u_jump e_eta_dg e_mesh e_g e_bnd]. destruct (e_u_jump E).
  - f_equal. f_equal; [f_equal|].
    + destruct (e_eta_dg E); [|reflexivity]. apply integral_ext'. intro f. cbv zeta. rewrite jump_n_lift. reflexivity.
    + apply integral_ext'. intro b. destruct (e_bnd E (m_marker M b)) as [|e]; cbn [lift_bnd]; [reflexivity|].
      rewrite datum_flux_b. reflexivity.
  - f_equal. f_equal. apply integral_ext'. intro b. destruct (e_bnd E (m_marker M b)) as [|e]; cbn [lift_bnd lift_ext ex_un]; reflexivity.
Qed.

Lemma datum_advection : forall psi uv eta uv_old eta_old,
  advection E' psi uv (up eta) uv_old (up eta_old) = advection E psi uv eta uv_old eta_old.
Proof.
  intros psi uv eta uv_old eta_old. unfold advection. cbn [datum_env e_nonlinear e_u_jump e_lax e_mesh e_g e_bnd].
  destruct (e_nonlinear E); [|reflexivity]. f_equal. f_equal; [f_equal|].
  - destruct (e_u_jump E); [|reflexivity]. f_equal. destruct (e_lax E); [|reflexivity]. f_equal. apply integral_ext'. intro b.
    destruct (e_bnd E (m_marker M b)) as [|e]; reflexivity.
  - apply integral_ext'. intro b. destruct (e_bnd E (m_marker M b)) as [|e]; cbn [lift_bnd]; [reflexivity|]. cbv zeta.
    rewrite !datum_s_b, datum_eta_ext, !datum_uv_ext, datum_hb.
    replace (s_b eta_old b + c - (eta_ext e (s_b eta_old) b + c)) with (s_b eta_old b - eta_ext e (s_b eta_old) b) by ring. reflexivity.
Qed.

Lemma datum_delta : forall uv eta e b, delta_uv E' uv (up eta) (lift_ext c e) b = delta_uv E uv eta e b.
Proof.
  intros uv eta e b. unfold delta_uv. rewrite datum_s_b, datum_uv_ext. cbn [lift_ext ex_un ex_uv]. reflexivity.
Qed.
Lemma datum_viscosity : forall psi uv eta eta_old,
  viscosity E' psi uv (up eta) (up eta_old) = viscosity E psi uv eta eta_old.
Proof.
  intros psi uv eta eta_old. unfold viscosity. rewrite datum_hv. cbn [datum_env e_nu e_u_jump e_grad_depth e_mesh e_bnd e_sigma_b e_grad_h].
  destruct (e_nu E) as [nu|]; [|reflexivity]. f_equal. f_equal. f_equal. destruct (e_u_jump E); [|reflexivity]. f_equal.
  apply integral_ext'. intro b. destruct (e_bnd E (m_marker M b)) as [|e]; cbn [lift_bnd]; [reflexivity|].
  rewrite datum_delta. reflexivity.
Qed.

Lemma datum_drag : forall psi uv uv_old eta_old,
  quadratic_drag E' psi uv uv_old (up eta_old) = quadratic_drag E psi uv uv_old eta_old.
Proof.
  intros psi uv uv_old eta_old. unfold quadratic_drag, drag_coefficient. rewrite datum_hv. reflexivity.
Qed.
Lemma datum_turbines : forall psi uv uv_old eta_old,
  turbine_drag E' psi uv uv_old (up eta_old) = turbine_drag E psi uv uv_old eta_old.
Proof. intros psi uv uv_old eta_old. unfold turbine_drag. rewrite datum_hv. reflexivity. Qed.

Lemma datum_momentum : forall psi uv eta uv_old eta_old, (e_eta_dg E = true -> gauss_v M psi) ->
  momentum_residual E' psi uv (up eta) uv_old (up eta_old) = momentum_residual E psi uv eta uv_old eta_old.
Proof.
  intros psi uv eta uv_old eta_old HG. unfold momentum_residual.
  rewrite datum_drag. destruct (quadratic_drag E psi uv uv_old eta_old) as [qd|]; [|reflexivity]. f_equal.
  rewrite (datum_pressure _ _ _ _ HG), datum_advection, datum_viscosity, datum_turbines.
  replace (wind E' psi (up eta_old)) with (wind E psi eta_old) by (unfold wind; rewrite datum_hv; reflexivity).
  replace (bottom_drag_3d E' psi (up eta_old)) with (bottom_drag_3d E psi eta_old) by (unfold bottom_drag_3d; rewrite datum_hv; reflexivity).
  reflexivity.
Qed.
Lemma datum_continuity : forall phi uv eta uv_old eta_old dh,
  continuity_residual E' phi uv (up eta) uv_old (up eta_old) dh = continuity_residual E phi uv eta uv_old eta_old dh.
Proof. intros. unfold continuity_residual. rewrite datum_hu_div. reflexivity. Qed.

(** ** Tracers *)
Variable T : tracer_env V F B.
Notation T' := (datum_tenv c T).
Lemma datum_tuv : forall tb (h : B -> R) u, tuv_ext E' (lift_tbnd c tb) (fun b => h b + c) u = tuv_ext E tb h u.
Proof.
  intros tb h u. unfold tuv_ext. exact (datum_uv_ext (mk_ext (tb_elev tb) (tb_uv tb) None) h u).
Qed.
Lemma datum_tadv : forall phi q uv elev, tracer_advection E' T' phi q uv (up elev) = tracer_advection E T phi q uv elev.
Proof.
  intros phi q uv elev. unfold tracer_advection. f_equal. f_equal. apply integral_ext'. intro b.
  cbn [datum_env datum_tenv e_mesh t_bnd]. destruct (t_bnd T (m_marker M b)) as [tb|]; cbn [option_map]; [|reflexivity].
  cbv zeta. rewrite datum_s_b, datum_tuv. reflexivity.
Qed.
Lemma datum_cons : forall phi q uv elev, cons_advection E' T' phi q uv (up elev) = cons_advection E T phi q uv elev.
Proof.
  intros phi q uv elev. unfold cons_advection. f_equal. f_equal. apply integral_ext'. intro b.
  cbn [datum_env datum_tenv e_mesh t_bnd]. destruct (t_bnd T (m_marker M b)) as [tb|]; cbn [option_map]; [|reflexivity].
  cbv zeta. rewrite datum_s_b, datum_tuv. reflexivity.
Qed.
Lemma datum_tdiff : forall phi q uv elev gext,
  tracer_diffusion E' T' phi q uv (up elev) gext = tracer_diffusion E T phi q uv elev gext.
Proof.
  intros phi q uv elev gext. unfold tracer_diffusion. cbn [datum_tenv t_mu]. destruct (t_mu T) as [mu|]; [|reflexivity].
  f_equal. f_equal. apply integral_ext'. intro b.
  cbn [datum_env datum_tenv e_mesh t_bnd]. destruct (t_bnd T (m_marker M b)) as [tb|]; cbn [option_map]; [|reflexivity].
  cbn [lift_tbnd tb_diff_flux tb_value]. destruct (tb_diff_flux tb); [reflexivity|]. cbv zeta. rewrite datum_s_b.
  change (mk_tb (tb_value tb) (tb_uv tb) (option_map (fun h b0 => h b0 + c) (tb_elev tb)) (tb_diff_flux tb)) with (lift_tbnd c tb).
  rewrite datum_tuv. reflexivity.
Qed.
Lemma datum_csource : forall phi elev, cons_source E' T' phi (up elev) = cons_source E T phi elev.
Proof. intros phi elev. unfold cons_source. rewrite ?datum_hv. reflexivity. Qed.
End Datum.
