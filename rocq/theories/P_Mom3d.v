(** C60: the 3D momentum equation and the internal pressure gradient. *)
From Coq Require Import Reals List Bool Lra String.
From Verif Require Import Forms_Model Forms_Proofs Forms3d_Model Forms3d_Spec P_Tracer3d P_Tracer3d_Bounds Mom3d_Model.
Import ListNotations.
Open Scope R_scope.

Section Mom.
Context {V F E : Type}.
Variable M : mesh3 V F E.
Variable K : menv3 V F E.
Local Notation KS := (const3 (V:=V) (F:=F) (E:=E)).

(** The tracer equation with the same advecting velocities, viscosities in the role of
    diffusivities, closed lateral boundaries and no source. *)
Definition as_tracer (uv : vfield3 V F E) : tenv3 V F E :=
  mk_tenv3 (m_hdg K) (m_vdg K) true (m_lax K) (Some uv) None (m_w K) (m_wmesh K) (m_muh K) (m_muv K)
    (m_sigh K) (m_sigv K) (m_sipgh K) (m_sipgv K) None (fun _ => None) (m_sign0 K).

Lemma lat_none : forall uv phi c, ds_lat M (adv_lat M (as_tracer uv) phi c uv) = 0.
Proof. intros. apply integral_zero. intros. reflexivity. Qed.
Lemma c2_avg3 : forall (uv : vfield3 V F E) (f : F), horizontal uv -> c2 (avg3 uv f) = 0.
Proof. intros uv f (_ & H & _). unfold avg3, scal3, add3. cbn [c2]. rewrite !H. ring. Qed.

(** Momentum is carried like a tracer: in the explicit case (solution_old = solution) both
    advection terms are those of the tracer equation, once for each component, with the
    lateral boundaries in addition; the viscosity terms are its diffusion terms. *)
Theorem C60_advected_like_tracers : forall psi u, horizontal (plus_dav K u) -> m_nonlin K = true ->
  let uv := plus_dav K u in
  m_hadv M K psi u u + m_vadv M K psi u
  = (hor_adv M (as_tracer uv) (w_x psi) (w_x uv) + ver_adv M (as_tracer uv) (w_x psi) (w_x uv))
    + (hor_adv M (as_tracer uv) (w_y psi) (w_y uv) + ver_adv M (as_tracer uv) (w_y psi) (w_y uv))
    - (if m_hdg K then ds_lat M (m_lat M K psi uv) else 0).
Proof.
  intros psi u Hz Hn uv. pose proof (c2_avg3 uv) as HA. fold uv in Hz.
  assert (H : m_hadv M K psi u u = hor_adv M (as_tracer uv) (w_x psi) (w_x uv) + hor_adv M (as_tracer uv) (w_y psi) (w_y uv)
     - (if m_hdg K then ds_lat M (m_lat M K psi uv) else 0)).
  { unfold m_hadv. rewrite Hn. fold uv. cbv zeta. unfold hor_adv. cbn [as_tracer full_uv k_uv k_dav k_hdg k_lax k_symm]. cbv zeta.
    rewrite !lat_none. destruct Hz as (Hz1 & Hz2 & Hz3).
    assert (B : dx3 M (fun p => c0 (a_gv (w_x psi) p) * a_v (w_x uv) p * a_v (w_x uv) p
                       + c1 (a_gv (w_x psi) p) * a_v (w_x uv) p * a_v (w_y uv) p
                       + c0 (a_gv (w_y psi) p) * a_v (w_y uv) p * a_v (w_x uv) p
                       + c1 (a_gv (w_y psi) p) * a_v (w_y uv) p * a_v (w_y uv) p)
       = dx3 M (fun p => a_v (w_x uv) p * dot3 (val_v uv p) (a_gv (w_x psi) p)) + dx3 M (fun p => a_v (w_y uv) p * dot3 (val_v uv p) (a_gv (w_y psi) p))).
    { unfold dx3. rewrite <- integral_plus. apply integral_ext. intros p _. unfold dot3. rewrite (Hz1 p). cbn [val_v c0 c1]. ring. }
    assert (C : ds_surf M (fun e => a_e (w_x uv) e * a_e (w_x uv) e * a_e (w_x psi) e * c0 (g_ne M e)
                           + a_e (w_x uv) e * a_e (w_y uv) e * a_e (w_x psi) e * c1 (g_ne M e)
                           + a_e (w_y uv) e * a_e (w_x uv) e * a_e (w_y psi) e * c0 (g_ne M e)
                           + a_e (w_y uv) e * a_e (w_y uv) e * a_e (w_y psi) e * c1 (g_ne M e))
       = ds_surf M (fun e => a_e (w_x uv) e * doth (val_e uv e) (g_ne M e) * a_e (w_x psi) e)
         + ds_surf M (fun e => a_e (w_y uv) e * doth (val_e uv e) (g_ne M e) * a_e (w_y psi) e)).
    { unfold ds_surf. rewrite <- integral_plus. apply integral_ext. intros e _. unfold doth. cbn [val_e c0 c1]. ring. }
    rewrite B, C. destruct (m_hdg K); [|ring].
    assert (A : forall l,
      integral l (g_wf M) (fun f =>
       (a_f (w_x uv) f false * mupw K (c0 (avg3 uv f) * c0 (nrm M f false) + c1 (avg3 uv f) * c1 (nrm M f false)) + a_f (w_x uv) f true * (1 - mupw K (c0 (avg3 uv f) * c0 (nrm M f false) + c1 (avg3 uv f) * c1 (nrm M f false)))) * c0 (avg3 uv f) * c0 (jump3 M (w_x psi) f)
       + (a_f (w_x uv) f false * mupw K (c0 (avg3 uv f) * c0 (nrm M f false) + c1 (avg3 uv f) * c1 (nrm M f false)) + a_f (w_x uv) f true * (1 - mupw K (c0 (avg3 uv f) * c0 (nrm M f false) + c1 (avg3 uv f) * c1 (nrm M f false)))) * c1 (avg3 uv f) * c1 (jump3 M (w_x psi) f)
       + (a_f (w_y uv) f false * mupw K (c0 (avg3 uv f) * c0 (nrm M f false) + c1 (avg3 uv f) * c1 (nrm M f false)) + a_f (w_y uv) f true * (1 - mupw K (c0 (avg3 uv f) * c0 (nrm M f false) + c1 (avg3 uv f) * c1 (nrm M f false)))) * c0 (avg3 uv f) * c0 (jump3 M (w_y psi) f)
       + (a_f (w_y uv) f false * mupw K (c0 (avg3 uv f) * c0 (nrm M f false) + c1 (avg3 uv f) * c1 (nrm M f false)) + a_f (w_y uv) f true * (1 - mupw K (c0 (avg3 uv f) * c0 (nrm M f false) + c1 (avg3 uv f) * c1 (nrm M f false)))) * c1 (avg3 uv f) * c1 (jump3 M (w_y psi) f))
      = integral l (g_wf M) (fun f => c_up (as_tracer uv) (w_x uv) f (doth (avg3 uv f) (nrm M f false)) * dot3 (avg3 uv f) (jump3 M (w_x psi) f))
        + integral l (g_wf M) (fun f => c_up (as_tracer uv) (w_y uv) f (doth (avg3 uv f) (nrm M f false)) * dot3 (avg3 uv f) (jump3 M (w_y psi) f))).
    { intro l. rewrite <- integral_plus. apply integral_ext. intros f _.
      unfold dot3. rewrite (HA f (conj Hz1 (conj Hz2 Hz3))). unfold c_up.
      change (upw (as_tracer uv) (doth (avg3 uv f) (nrm M f false)))
        with (mupw K (c0 (avg3 uv f) * c0 (nrm M f false) + c1 (avg3 uv f) * c1 (nrm M f false))). ring. }
    unfold dS_v, dS_h. rewrite !A. destruct (m_lax K) as [lf|]; [|ring].
    assert (L : forall l, integral l (g_wf M) (fun f => 0.5 * Rabs (c0 (avg3 uv f) * c0 (nrm M f false) + c1 (avg3 uv f) * c1 (nrm M f false)) * lf
        * (jump (a_f (w_x psi) f) * jump (a_f (w_x uv) f) + jump (a_f (w_y psi) f) * jump (a_f (w_y uv) f)))
      = integral l (g_wf M) (fun f => 0.5 * Rabs (doth (avg3 uv f) (nrm M f false)) * lf * (jump (a_f (w_x psi) f) * jump (a_f (w_x uv) f)))
        + integral l (g_wf M) (fun f => 0.5 * Rabs (doth (avg3 uv f) (nrm M f false)) * lf * (jump (a_f (w_y psi) f) * jump (a_f (w_y uv) f)))).
    { intro l. rewrite <- integral_plus. apply integral_ext. intros f _. unfold doth. ring. }
    rewrite !L. ring. }
  assert (W : m_vadv M K psi u = ver_adv M (as_tracer uv) (w_x psi) (w_x uv) + ver_adv M (as_tracer uv) (w_y psi) (w_y uv)).
  { unfold m_vadv, ver_adv. rewrite Hn. fold uv. change (vertvelo (as_tracer uv)) with (m_vert K). destruct (m_vert K) as [w|]; [|ring].
    cbv zeta. cbn [as_tracer k_vdg k_lax].
    assert (B : dx3 M (fun p => c2 (a_gv (w_x psi) p) * a_v (w_x uv) p * a_v w p + c2 (a_gv (w_y psi) p) * a_v (w_y uv) p * a_v w p)
      = dx3 M (fun p => a_v (w_x uv) p * a_v w p * c2 (a_gv (w_x psi) p)) + dx3 M (fun p => a_v (w_y uv) p * a_v w p * c2 (a_gv (w_y psi) p))).
    { unfold dx3. rewrite <- integral_plus. apply integral_ext. intros; ring. }
    assert (C : ds_surf M (fun e => a_e (w_x uv) e * a_e w e * a_e (w_x psi) e * c2 (g_ne M e) + a_e (w_y uv) e * a_e w e * a_e (w_y psi) e * c2 (g_ne M e))
      = ds_surf M (fun e => a_e (w_x uv) e * a_e w e * c2 (g_ne M e) * a_e (w_x psi) e) + ds_surf M (fun e => a_e (w_y uv) e * a_e w e * c2 (g_ne M e) * a_e (w_y psi) e)).
    { unfold ds_surf. rewrite <- integral_plus. apply integral_ext. intros; ring. }
    rewrite B, C. destruct (m_vdg K); [|ring].
    assert (A : dS_h M (fun f =>
         (a_f (w_x uv) f false * mupw K (avg (a_f w f) * c2 (nrm M f false)) + a_f (w_x uv) f true * (1 - mupw K (avg (a_f w f) * c2 (nrm M f false)))) * avg (a_f w f) * c2 (jump3 M (w_x psi) f)
         + (a_f (w_y uv) f false * mupw K (avg (a_f w f) * c2 (nrm M f false)) + a_f (w_y uv) f true * (1 - mupw K (avg (a_f w f) * c2 (nrm M f false)))) * avg (a_f w f) * c2 (jump3 M (w_y psi) f))
      = dS_h M (fun f => c_up (as_tracer uv) (w_x uv) f (avg (a_f w f) * c2 (nrm M f false)) * avg (a_f w f) * c2 (jump3 M (w_x psi) f))
        + dS_h M (fun f => c_up (as_tracer uv) (w_y uv) f (avg (a_f w f) * c2 (nrm M f false)) * avg (a_f w f) * c2 (jump3 M (w_y psi) f))).
    { unfold dS_h. rewrite <- integral_plus. apply integral_ext. intros f _. reflexivity. }
    rewrite A. destruct (m_lax K) as [lf|]; [|ring].
    assert (L : dS_h M (fun f => 0.5 * Rabs (avg (a_f w f) * c2 (nrm M f false)) * lf
        * (jump (a_f (w_x psi) f) * jump (a_f (w_x uv) f) + jump (a_f (w_y psi) f) * jump (a_f (w_y uv) f)))
      = dS_h M (fun f => 0.5 * Rabs (avg (a_f w f) * c2 (nrm M f false)) * lf * (jump (a_f (w_x psi) f) * jump (a_f (w_x uv) f)))
        + dS_h M (fun f => 0.5 * Rabs (avg (a_f w f) * c2 (nrm M f false)) * lf * (jump (a_f (w_y psi) f) * jump (a_f (w_y uv) f)))).
    { unfold dS_h. rewrite <- integral_plus. apply integral_ext. intros; ring. }
    rewrite L. ring. }
  rewrite H, W. ring.
Qed.

(** and so for viscosity (the third component of the velocity is zero) *)
Definition flat_field (q : sfield3 V F E) : Prop :=
  (forall f s, a_f q f s = 0) /\ (forall p, a_gv q p = zero3) /\ (forall f s, a_gf q f s = zero3).
Theorem C60_viscosity_like_diffusion : forall psi u, flat_field (w_z psi) -> flat_field (w_z u) ->
  flat_field (w_z (plus_dav K u)) ->
  (let uv := plus_dav K u in
   m_hvisc M K psi u = hor_diff M (as_tracer uv) (w_x psi) (w_x uv) + hor_diff M (as_tracer uv) (w_y psi) (w_y uv)
   /\ m_vvisc M K psi u = ver_diff M (as_tracer uv) (w_x psi) (w_x u) + ver_diff M (as_tracer uv) (w_y psi) (w_y u)).
Proof.
  intros psi u (P1 & P2 & P3) (U1 & U2 & U3) (D1 & D2 & D3) uv. fold uv in D1, D2, D3.
  assert (JP : forall f, jump (a_f (w_z psi) f) = 0) by (intro; unfold jump; rewrite !P1; ring).
  assert (JU : forall f, jump (a_f (w_z u) f) = 0) by (intro; unfold jump; rewrite !U1; ring).
  assert (JD : forall f, jump (a_f (w_z uv) f) = 0) by (intro; unfold jump; rewrite !D1; ring).
  split.
  - unfold m_hvisc, hor_diff. cbn [as_tracer k_muh k_hdg k_sigh k_sipgh]. fold uv. destruct (m_muh K) as [mu|]; [|ring]. cbv zeta.
    unfold dx3, dS_h, dS_v, ds_surf, ds_bottom. rewrite integral_plus.
    assert (B : forall l, integral l (g_we M) (fun e => - (dot3 (hflux (a_e mu e) (a_ge (w_x uv) e)) (g_ne M e) * a_e (w_x psi) e
         + dot3 (hflux (a_e mu e) (a_ge (w_y uv) e)) (g_ne M e) * a_e (w_y psi) e))
      = integral l (g_we M) (fun e => - (dot3 (hflux (a_e mu e) (a_ge (w_x uv) e)) (g_ne M e) * a_e (w_x psi) e))
        + integral l (g_we M) (fun e => - (dot3 (hflux (a_e mu e) (a_ge (w_y uv) e)) (g_ne M e) * a_e (w_y psi) e))).
    { intro l. rewrite <- integral_plus. apply integral_ext. intros; ring. }
    rewrite !B. destruct (m_hdg K); [|ring].
    match goal with |- - (_ + (integral (g_hor M) _ ?h + integral (g_ver M) _ ?h) + _ + _)
      = - (_ + (integral (g_hor M) _ ?hx + integral (g_ver M) _ ?hx) + _ + _) + - (_ + (integral (g_hor M) _ ?hy + integral (g_ver M) _ ?hy) + _ + _) =>
      assert (A : forall l, integral l (g_wf M) h = integral l (g_wf M) hx + integral l (g_wf M) hy) end.
    { intro l. rewrite <- integral_plus. apply integral_ext. intros f _. rewrite !(jump3_eq M (w_z psi)), !(jump3_eq M (w_z uv)), JP, JD.
      rewrite !P3, !D3. unfold dot3, hflux, scal3, add3, zero3. cbn [c0 c1 c2]. ring. }
    rewrite !A. ring.
  - unfold m_vvisc, ver_diff. cbn [as_tracer k_muv k_vdg k_sigv k_sipgv]. destruct (m_muv K) as [mu|]; [|ring]. cbv zeta.
    unfold dx3, dS_h.
    rewrite (integral_ext (g_cells M) (g_wv M) _ (fun p => c2 (a_gv (w_x psi) p) * (a_v mu p * c2 (a_gv (w_x u) p)) + c2 (a_gv (w_y psi) p) * (a_v mu p * c2 (a_gv (w_y u) p)))).
    2:{ intros p _. rewrite P2. cbn [zero3 c2]. ring. }
    rewrite integral_plus. destruct (m_vdg K); [|ring].
    match goal with |- - (_ + integral (g_hor M) _ ?h) = - (_ + integral (g_hor M) _ ?hx) + - (_ + integral (g_hor M) _ ?hy) =>
      assert (A : integral (g_hor M) (g_wf M) h = integral (g_hor M) (g_wf M) hx + integral (g_hor M) (g_wf M) hy) end.
    { rewrite <- integral_plus. apply integral_ext. intros f _. rewrite !(jump3_eq M (w_z psi)), !(jump3_eq M (w_z u)), JP, JU.
      assert (avg (fun s => a_f mu f s * c2 (a_gf (w_z psi) f s)) = 0) as -> by (unfold avg; rewrite !P3; cbn [zero3 c2]; ring).
      assert (avg (fun s => a_f mu f s * c2 (a_gf (w_z u) f s)) = 0) as -> by (unfold avg; rewrite !U3; cbn [zero3 c2]; ring).
      unfold scal3. cbn [c2]. ring. }
    rewrite A. ring.
Qed.

(* ------------------------------------------------------------------ *)
(** ** Momentum budget *)

Lemma tr_surf : forall uv c e, surf_out M (as_tracer uv) c e
  = a_e c e * (doth (val_e uv e) (g_ne M e) + match m_vert K with Some w => a_e w e * c2 (g_ne M e) | None => 0 end).
Proof. intros. reflexivity. Qed.

(** The x-component of momentum (tested by the constant vector e_x): advection changes the
    total only at the free surface and at lateral boundaries. *)
Theorem C60_momentum_budget : forall u, horizontal (plus_dav K u) -> m_nonlin K = true ->
  let uv := plus_dav K u in
  let rel e := doth (val_e uv e) (g_ne M e) + match m_vert K with Some w => a_e w e * c2 (g_ne M e) | None => 0 end in
  forall ex ey, let psi := mk_vf3 (KS ex) (KS ey) (KS 0) in
  m_hadv M K psi u u + m_vadv M K psi u
  = - ds_surf M (fun e => (ex * a_e (w_x uv) e + ey * a_e (w_y uv) e) * rel e)
    - (if m_hdg K then ds_lat M (m_lat M K psi uv) else 0).
Proof.
  intros u Hz Hn uv rel ex ey psi. rewrite (C60_advected_like_tracers psi u Hz Hn). fold uv. cbn [psi w_x w_y].
  assert (S : forall k c, hor_adv M (as_tracer uv) (KS k) c + ver_adv M (as_tracer uv) (KS k) c
    = k * (hor_adv M (as_tracer uv) (KS 1) c + ver_adv M (as_tracer uv) (KS 1) c)).
  { intros k c.
    assert (H1 : hor_adv M (as_tracer uv) (KS k) c = k * hor_adv M (as_tracer uv) (KS 1) c).
    { unfold hor_adv. cbn [as_tracer full_uv k_uv k_dav k_hdg k_lax k_symm]. cbv zeta. rewrite !lat_none.
      unfold dx3, dS_v, dS_h, ds_surf.
      rewrite !(integral_zero (g_cells M)) by (intros; unfold dot3; cbn [const3 a_gv zero3 c0 c1 c2]; ring).
      assert (A : forall k' l, integral l (g_wf M) (fun f => c_up (as_tracer uv) c f (doth (avg3 uv f) (nrm M f false)) * dot3 (avg3 uv f) (jump3 M (KS k') f)) = 0).
      { intros k' l. apply integral_zero. intros f _. rewrite jump3_eq, jump_const. unfold dot3, scal3. cbn [c0 c1 c2]. ring. }
      rewrite !A.
      assert (L : forall k', match m_lax K with None => 0 | Some lf =>
         integral (g_ver M) (g_wf M) (fun f => 0.5 * Rabs (doth (avg3 uv f) (nrm M f false)) * lf * (jump (a_f (KS k') f) * jump (a_f c f)))
         + integral (g_hor M) (g_wf M) (fun f => 0.5 * Rabs (doth (avg3 uv f) (nrm M f false)) * lf * (jump (a_f (KS k') f) * jump (a_f c f))) end = 0).
      { intro k'. destruct (m_lax K); [|reflexivity]. rewrite !integral_zero; [ring| |]; intros; rewrite jump_const; ring. }
      rewrite !L.
      rewrite (integral_ext (g_surf M) (g_we M) (fun e => a_e c e * doth (val_e uv e) (g_ne M e) * a_e (KS k) e)
        (fun e => k * (a_e c e * doth (val_e uv e) (g_ne M e) * a_e (KS 1) e))) by (intros; cbn [const3 a_e]; ring).
      rewrite integral_scal. destruct (m_hdg K); ring. }
    assert (H2 : ver_adv M (as_tracer uv) (KS k) c = k * ver_adv M (as_tracer uv) (KS 1) c).
    { unfold ver_adv. change (vertvelo (as_tracer uv)) with (m_vert K). destruct (m_vert K) as [w|]; [|ring]. cbv zeta.
      cbn [as_tracer k_vdg k_lax]. unfold dx3, dS_h, ds_surf.
      rewrite !(integral_zero (g_cells M)) by (intros; cbn [const3 a_gv zero3 c2]; ring).
      assert (A : forall k', integral (g_hor M) (g_wf M) (fun f => c_up (as_tracer uv) c f (avg (a_f w f) * c2 (nrm M f false)) * avg (a_f w f) * c2 (jump3 M (KS k') f)) = 0).
      { intro k'. apply integral_zero. intros f _. rewrite jump3_eq, jump_const. unfold scal3. cbn [c2]. ring. }
      rewrite !A.
      assert (L : forall k', match m_lax K with None => 0 | Some lf =>
         integral (g_hor M) (g_wf M) (fun f => 0.5 * Rabs (avg (a_f w f) * c2 (nrm M f false)) * lf * (jump (a_f (KS k') f) * jump (a_f c f))) end = 0).
      { intro k'. destruct (m_lax K); [|reflexivity]. rewrite !integral_zero; [ring|]; intros; rewrite jump_const; ring. }
      rewrite !L.
      rewrite (integral_ext (g_surf M) (g_we M) (fun e => a_e c e * a_e w e * c2 (g_ne M e) * a_e (KS k) e)
        (fun e => k * (a_e c e * a_e w e * c2 (g_ne M e) * a_e (KS 1) e))) by (intros; cbn [const3 a_e]; ring).
      rewrite integral_scal. destruct (m_vdg K); ring. }
    rewrite H1, H2. ring. }
  rewrite (S ex), (S ey), !C59_advection_budget.
  assert (LZ : forall c, ds_lat M (lat_out M (as_tracer uv) c) = 0).
  { intro c. apply integral_zero. intros e _. unfold lat_out, adv_lat. cbn [as_tracer full_uv k_uv k_dav k_hdg k_bnd]. now destruct (m_hdg K). }
  rewrite !LZ.
  assert (Q : ds_surf M (fun e => (ex * a_e (w_x uv) e + ey * a_e (w_y uv) e) * rel e)
    = ex * ds_surf M (surf_out M (as_tracer uv) (w_x uv)) + ey * ds_surf M (surf_out M (as_tracer uv) (w_y uv))).
  { unfold ds_surf. rewrite <- !integral_scal, <- integral_plus. apply integral_ext. intros e _. rewrite !tr_surf. fold (rel e). ring. }
  rewrite Q. ring.
Qed.

(* ------------------------------------------------------------------ *)
(** ** Kinetic energy *)

Definition closed_walls : Prop := forall e, In e (g_lat M) -> m_bnd K (g_marker M e) = None.

(** Walls take energy: the Lax-Friedrichs term at closed boundaries opposes the normal
    velocity. *)
Lemma wall_loss : forall uv e, m_bnd K (g_marker M e) = None -> 0 <= match m_lax K with Some lf => lf | None => 0 end ->
  c2 (val_e uv e) = 0 -> 0 <= m_lat M K uv uv e.
Proof.
  intros uv e Hb Hl Hz. unfold m_lat. rewrite Hb. destruct (m_lax K) as [lf|]; [|lra]. cbv zeta.
  set (n := g_ne M e). set (u := val_e uv e) in *.
  change (a_e (w_x uv) e) with (c0 u). change (a_e (w_y uv) e) with (c1 u).
  cbn [sub3 scal3 c0 c1].
  replace (c0 u * (c0 u - (c0 u - 2 * dot3 u n * c0 n)) + c1 u * (c1 u - (c1 u - 2 * dot3 u n * c1 n)))
    with (2 * (dot3 u n * dot3 u n)) by (unfold dot3; rewrite Hz; ring).
  apply Rmult_le_pos; [|nra]. apply Rmult_le_pos; [|exact Hl]. apply Rmult_le_pos; [lra|apply Rabs_pos].
Qed.

(** In a closed basin, with no water through the free surface and the continuity equation
    satisfied for the squares of both components, advection never increases the kinetic
    energy of the total velocity. *)
Theorem C60_advection_energy : forall u w, let uv := plus_dav K u in
  positive3 M -> 0 <= match m_lax K with Some lf => lf | None => 0 end ->
  horizontal uv -> m_nonlin K = true -> m_hdg K = true -> m_vdg K = true ->
  m_w K = Some w -> m_wmesh K = None ->
  continuity M (fun _ => false) uv w (sq3 (w_x uv)) -> continuity M (fun _ => false) uv w (sq3 (w_y uv)) ->
  closed_walls -> (forall e, In e (g_surf M) -> surface_flux M uv w e = 0) ->
  m_hadv M K uv u u + m_vadv M K uv u <= 0.
Proof.
  intros u w uv HP Hl Hz Hn Hh Hv Hw Hm C1 C2 Hb Hs. pose proof (C60_advected_like_tracers uv u Hz Hn) as A. cbv zeta in A. fold uv in A. rewrite A, Hh.
  assert (B : forall c, continuity M (fun _ => false) uv w (sq3 c) ->
     hor_adv M (as_tracer uv) c c + ver_adv M (as_tracer uv) c c <= 0).
  { intros c Hc. apply (C59_variance_not_growing M (as_tracer uv) (fun _ => false) uv w c HP); auto. }
  assert (L : 0 <= ds_lat M (m_lat M K uv uv)).
  { destruct HP as (_ & _ & _ & _ & _ & PL). apply integral_nonneg; intros e He; [pose proof (PL e He); lra|].
    apply wall_loss; auto. apply Hz. }
  pose proof (B (w_x uv) C1). pose proof (B (w_y uv) C2). lra.
Qed.

(** Coriolis does no work on the solution. *)
Theorem C60_coriolis_no_work : forall u, m_cor M K u u = 0.
Proof.
  intro u. unfold m_cor. destruct (m_coriolis K); [|reflexivity]. unfold dx3. rewrite integral_zero; [ring|]. intros; ring.
Qed.

(** Bottom friction and linear drag take energy from the total velocity. *)
Theorem C60_friction_dissipates : forall u u_old bf,
  positive3 M -> m_bfric M K (plus_dav K u) u u_old = Some bf ->
  (forall d, m_quad K = Some d -> forall e, 0 <= d e) -> bf <= 0.
Proof.
  intros u u_old bf (_ & _ & _ & _ & PB & _) H Hd. unfold m_bfric in H. destruct (m_friction K).
  2:{ assert (0 = bf) by congruence. lra. }
  destruct (m_drag K) as [drag|] eqn:Ed; [|discriminate].
  assert (D : forall e, 0 <= drag e).
  { intro e. unfold m_drag in Ed. destruct (m_quad K) as [d|].
    - assert (d = drag) as <- by congruence. now apply (Hd d).
    - destruct (m_z0 K) as [z|]; [|discriminate]. destruct (m_velem K) as [h|]; [|discriminate].
      assert ((fun e => fit_drag (m_kappa K) (h e) (z e)) = drag) as <- by congruence. unfold fit_drag. cbn. nra. }
  cbv zeta in H. match type of H with Some ?x = _ => assert (bf = x) as -> by congruence end.
  match goal with |- - ?x <= 0 => assert (0 <= x); [|lra] end.
  apply integral_nonneg; intros e He; [pose proof (PB e He); lra|].
  apply Rmult_le_pos; [apply Rmult_le_pos; [apply D|apply sqrt_pos]|]. nra.
Qed.
Theorem C60_linear_drag_dissipates : forall u, positive3 M ->
  (forall d, m_linear K = Some d -> forall p, 0 <= d p) -> m_ldrag M K (plus_dav K u) u <= 0.
Proof.
  intros u (PC & _) Hd. unfold m_ldrag. destruct (m_linear K) as [d|]; [|lra].
  match goal with |- - ?x <= 0 => assert (0 <= x); [|lra] end.
  apply integral_nonneg; intros p Hp; [pose proof (PC p Hp); lra|]. apply Rmult_le_pos; [now apply Hd|]. unfold dot3. nra.
Qed.

(** Without depth average, wind, source and internal pressure gradient, and with no
    viscosity, the whole residual takes energy out of a closed basin. *)
Theorem C60_energy_decay : forall u w r, m_dav K = None ->
  positive3 M -> 0 <= match m_lax K with Some lf => lf | None => 0 end ->
  horizontal u -> m_nonlin K = true -> m_hdg K = true -> m_vdg K = true ->
  m_w K = Some w -> m_wmesh K = None ->
  continuity M (fun _ => false) u w (sq3 (w_x u)) -> continuity M (fun _ => false) u w (sq3 (w_y u)) ->
  closed_walls -> (forall e, In e (g_surf M) -> surface_flux M u w e = 0) ->
  (forall d, m_quad K = Some d -> forall e, 0 <= d e) -> (forall d, m_linear K = Some d -> forall p, 0 <= d p) ->
  m_intpg K = None -> m_source K = None -> m_wind K = None -> m_hvisc M K u u <= 0 -> m_vvisc M K u u <= 0 ->
  mom_residual M K u u u = Some r -> r <= 0.
Proof.
  intros u w r Hd HP Hl Hz Hn Hh Hv Hw Hm C1 C2 Hb Hs Q1 Q2 Hi Hq Hwi Vh Vv H.
  assert (EQ : plus_dav K u = u) by (unfold plus_dav; now rewrite Hd).
  pose proof (C60_advection_energy u w) as A. rewrite EQ in A. specialize (A HP Hl Hz Hn Hh Hv Hw Hm C1 C2 Hb Hs).
  pose proof (C60_coriolis_no_work u) as B. pose proof (C60_linear_drag_dissipates u HP Q2) as D. rewrite EQ in D.
  unfold mom_residual in H. destruct (m_bfric M K u u u) as [bf|] eqn:Ef; [|discriminate].
  assert (BF : bf <= 0). { apply (C60_friction_dissipates u u); [exact HP|rewrite EQ; exact Ef|exact Q1]. }
  match type of H with Some ?x = _ => assert (r = x) as -> by congruence end.
  unfold m_pressure, m_src. rewrite Hi, Hq, Hwi. destruct (m_muv K); lra.
Qed.

(* ------------------------------------------------------------------ *)
(** ** Rest and uniform flow *)

(** Still water stays still: without forcing and with zero external velocities. *)
Definition still (u : vfield3 V F E) : Prop := u = mk_vf3 (KS 0) (KS 0) (KS 0).
Theorem C60_rest_kept : forall psi u, still u -> m_dav K = None -> m_intpg K = None -> m_source K = None ->
  (m_wind K = None \/ m_muv K = None) ->
  (forall e b, In e (g_lat M) -> m_bnd K (g_marker M e) = Some b -> m_ext M b zero3 e = zero3) ->
  (m_friction K = true -> m_drag K <> None) ->
  mom_residual M K psi u u = Some 0.
Proof.
  intros psi u Hu Hd Hi Hq Hw Hb Hf. red in Hu.
  assert (EQ : plus_dav K u = u) by (unfold plus_dav; now rewrite Hd).
  assert (Z : forall q, (q = w_x u \/ q = w_y u \/ q = w_z u) -> q = KS 0) by (rewrite Hu; cbn; tauto).
  assert (J : forall f, jump (a_f (KS 0) f) = 0) by (intro; apply jump_const).
  assert (H1 : m_hadv M K psi u u = 0).
  { unfold m_hadv. destruct (m_nonlin K); [|reflexivity]. rewrite EQ, Hu. cbv zeta. cbn [w_x w_y].
    unfold dx3, dS_v, dS_h, ds_surf, ds_lat.
    rewrite (integral_zero (g_cells M)) by (intros; cbn [const3 a_v]; ring).
    rewrite (integral_zero (g_surf M)) by (intros; cbn [const3 a_e]; ring).
    rewrite (integral_zero (g_lat M)).
    2:{ intros e He. unfold m_lat. specialize (Hb e). destruct (m_bnd K (g_marker M e)) as [b|].
        - cbv zeta. specialize (Hb b He eq_refl). change (val_e (mk_vf3 (KS 0) (KS 0) (KS 0)) e) with zero3. rewrite Hb.
          unfold scal3, add3, sub3, zero3. cbn [c0 c1]. ring.
        - destruct (m_lax K); [|reflexivity]. unfold sub3, scal3, dot3. cbn [val_e w_x w_y w_z const3 a_e c0 c1 c2]. ring. }
    destruct (m_hdg K); [|ring].
    rewrite !(integral_zero _ (g_wf M) (fun f => _ * c0 (avg3 _ f) * _ + _ + _ + _)) by (intros; cbn [const3 a_f]; ring).
    destruct (m_lax K); [|ring]. rewrite !integral_zero; [ring| |]; intros; rewrite J; ring. }
  assert (H2 : m_vadv M K psi u = 0).
  { unfold m_vadv. destruct (m_vert K) as [w|]; [|reflexivity]. destruct (m_nonlin K); [|reflexivity]. rewrite EQ, Hu. cbv zeta. cbn [w_x w_y].
    unfold dx3, dS_h, ds_surf.
    rewrite (integral_zero (g_cells M)) by (intros; cbn [const3 a_v]; ring).
    rewrite (integral_zero (g_surf M)) by (intros; cbn [const3 a_e]; ring).
    destruct (m_vdg K); [|ring].
    rewrite !(integral_zero (g_hor M) (g_wf M) (fun f => _ * avg (a_f w f) * _ + _)) by (intros; cbn [const3 a_f]; ring).
    destruct (m_lax K); [|ring]. rewrite !integral_zero; [ring|]; intros; rewrite J; ring. }
  assert (JZ : forall f, jump3 M (KS 0) f = zero3).
  { intro f. rewrite jump3_eq, J. unfold scal3, zero3. f_equal; ring. }
  assert (H3 : m_hvisc M K psi u = 0).
  { unfold m_hvisc. destruct (m_muh K) as [mu|]; [|reflexivity]. rewrite EQ, Hu. cbv zeta. cbn [w_x w_y w_z].
    unfold dx3, dS_v, dS_h, ds_surf, ds_bottom.
    rewrite (integral_zero (g_cells M)) by (intros; unfold dot3, hflux; cbn [const3 a_gv zero3 c0 c1 c2]; ring).
    rewrite (integral_zero (g_surf M)) by (intros; unfold dot3, hflux; cbn [const3 a_ge zero3 c0 c1 c2]; ring).
    rewrite (integral_zero (g_bot M)) by (intros; unfold dot3, hflux; cbn [const3 a_ge zero3 c0 c1 c2]; ring).
    destruct (m_hdg K); [|ring].
    rewrite !integral_zero; [ring| |]; intros f _; rewrite !JZ; unfold dot3, hflux, scal3, add3; cbn [const3 a_gf zero3 c0 c1 c2]; ring. }
  assert (H4 : m_vvisc M K psi u = 0).
  { unfold m_vvisc. destruct (m_muv K) as [mu|]; [|reflexivity]. rewrite Hu. cbv zeta. cbn [w_x w_y w_z].
    unfold dx3, dS_h.
    rewrite (integral_zero (g_cells M)) by (intros; cbn [const3 a_gv zero3 c2]; ring).
    destruct (m_vdg K); [|ring].
    rewrite !integral_zero; [ring|]; intros f _; rewrite !JZ; unfold avg; cbn [const3 a_gf zero3 c2]; ring. }
  assert (H5 : m_bfric M K psi u u = Some 0).
  { unfold m_bfric. destruct (m_friction K); [|reflexivity]. destruct (m_drag K) as [d|]; [|now destruct (Hf eq_refl)].
    rewrite EQ, Hu. cbv zeta. f_equal. unfold ds_bottom. rewrite integral_zero; [ring|]. intros; cbn [w_x w_y const3 a_e]; ring. }
  assert (H6 : m_ldrag M K psi u = 0).
  { unfold m_ldrag. destruct (m_linear K); [|reflexivity]. rewrite EQ, Hu. unfold dx3. rewrite integral_zero; [ring|].
    intros; unfold dot3; cbn [val_v w_x w_y w_z const3 a_v c0 c1 c2]; ring. }
  assert (H7 : m_cor M K psi u = 0).
  { unfold m_cor. destruct (m_coriolis K); [|reflexivity]. rewrite Hu. unfold dx3. rewrite integral_zero; [ring|].
    intros; cbn [w_x w_y const3 a_v]; ring. }
  unfold mom_residual. rewrite H5, H1, H2, H3, H4, H6, H7. f_equal. unfold m_pressure, m_src. rewrite Hi, Hq.
  destruct Hw as [Hw|Hw]; rewrite Hw; [destruct (m_muv K)|]; ring.
Qed.

(** A uniform velocity is not changed by advection in the interior: with continuity, open
    boundaries that impose the same velocity (or the interior one), and walls along which
    the flow is tangential. *)
Theorem C60_uniform_flow_kept : forall ob a b psi u w,
  plus_dav K u = mk_vf3 (KS a) (KS b) (KS 0) ->
  m_nonlin K = true -> m_hdg K = true -> m_vdg K = true -> m_w K = Some w -> m_wmesh K = None ->
  continuity M ob (plus_dav K u) w (w_x psi) -> continuity M ob (plus_dav K u) w (w_y psi) ->
  (forall e, In e (g_lat M) ->
     match m_bnd K (g_marker M e) with
     | Some mb => ob (g_marker M e) = true /\ m_ext M mb (V3 a b 0) e = V3 a b 0
     | None => ob (g_marker M e) = false /\ dot3 (V3 a b 0) (g_ne M e) = 0
     end) ->
  m_hadv M K psi u u + m_vadv M K psi u = 0.
Proof.
  intros ob a b psi u w Hu Hn Hh Hv Hw Hm Cx Cy HL.
  assert (Hz : horizontal (plus_dav K u)) by (rewrite Hu; repeat split).
  rewrite (C60_advected_like_tracers psi u Hz Hn), Hh. set (uv := plus_dav K u) in *.
  assert (SV : surface_velocity M (k_symm (as_tracer uv)) uv).
  { intros e _. cbn [as_tracer k_symm]. destruct Hz as (_ & _ & Hz). rewrite Hz. ring. }
  pose proof (C59_constants_formula M (as_tracer uv) ob a (w_x psi) uv w eq_refl Hw Hh Hv SV Cx) as A.
  pose proof (C59_constants_formula M (as_tracer uv) ob b (w_y psi) uv w eq_refl Hw Hh Hv SV Cy) as B.
  cbn [as_tracer k_wmesh] in A, B. rewrite Hm in A, B.
  assert (w_x uv = KS a /\ w_y uv = KS b) as (-> & ->) by (rewrite Hu; split; reflexivity).
  rewrite A, B.
  assert (Q : ds_lat M (m_lat M K psi uv) = ds_lat M (lat_defect M (as_tracer uv) ob a (w_x psi) uv) + ds_lat M (lat_defect M (as_tracer uv) ob b (w_y psi) uv)).
  { unfold ds_lat. rewrite <- integral_plus. apply integral_ext. intros e He. specialize (HL e He).
    unfold lat_defect, adv_lat, m_lat. cbn [as_tracer k_bnd]. cbv zeta.
    assert (val_e uv e = V3 a b 0) as -> by (rewrite Hu; reflexivity).
    destruct (m_bnd K (g_marker M e)) as [mb|].
    - destruct HL as (-> & ->). unfold doth, sub3, scal3, add3. cbn [c0 c1]. ring.
    - destruct HL as (-> & D). rewrite D. destruct (m_lax K); [|ring]. unfold sub3, scal3. cbn [c0 c1]. ring. }
  rewrite Q. ring.
Qed.

(* ------------------------------------------------------------------ *)
(** ** Forcing *)

(** Wind stress acts only with vertical viscosity; then its total input is the stress over
    the density, integrated over the surface. *)
Theorem C60_wind_stress : forall ex ey tau, m_wind K = Some tau -> m_source K = None ->
  m_src M K (mk_vf3 (KS ex) (KS ey) (KS 0))
  = match m_muv K with
    | None => 0
    | Some _ => ds_surf M (fun e => (c0 (tau e) * ex + c1 (tau e) * ey) / m_rho0 K)
    end.
Proof.
  intros ex ey tau Hw Hs. unfold m_src. rewrite Hw, Hs. destruct (m_muv K); [|ring].
  rewrite Rplus_0_r. apply integral_ext. intros; reflexivity.
Qed.
End Mom.

(* ------------------------------------------------------------------ *)
(** ** Boundary dictionaries *)

(** Which keys decide: 'symm' over 'uv' over 'un' over 'flux'; a dictionary with none of
    these raises an exception. *)
Theorem C60_boundary_keys : forall {E} q (d : bdict3 (E:=E)),
  ((exists v, bget3 "symm" d = Some v) -> get_mbnd q d = inl MSymm)
  /\ (bget3 "symm" d = None -> forall g, bget3 "uv" d = Some (BV3 g) -> get_mbnd q d = inl (MUv g))
  /\ (bget3 "symm" d = None -> bget3 "uv" d = None -> forall g, bget3 "un" d = Some (BS3 g) -> get_mbnd q d = inl (MUn g))
  /\ (bget3 "symm" d = None -> bget3 "uv" d = None -> bget3 "un" d = None ->
      forall g, bget3 "flux" d = Some (BS3 g) -> get_mbnd q d = inl (MUn (q g)))
  /\ (get_mbnd q d = inr MUnsupported <->
      bget3 "symm" d = None /\ bget3 "uv" d = None /\ bget3 "un" d = None /\ bget3 "flux" d = None).
Proof.
  intros E q d. unfold get_mbnd.
  destruct (bget3 "symm" d) as [s|]; destruct (bget3 "uv" d) as [[u|u]|]; destruct (bget3 "un" d) as [[n|n]|];
    destruct (bget3 "flux" d) as [[x|x]|];
    (split; [intros (v & H); try discriminate H; reflexivity|]);
    (split; [intros H1 g H2; try discriminate; congruence|]);
    (split; [intros H1 H2 g H3; try discriminate; congruence|]);
    (split; [intros H1 H2 H3 g H4; try discriminate; congruence|]);
    (split; [intro H; try discriminate H; repeat split; reflexivity|]);
    intros (H1 & H2 & H3 & H4); try discriminate; reflexivity.
Qed.

(* ------------------------------------------------------------------ *)
(** ** Bottom drag from the roughness length *)

Lemma pow_gt : (91/90) ^ 100 > 3.
Proof.
  replace (91/90) with (91 * / 90) by field. rewrite Rpow_mult_distr, pow_inv by lra.
  apply Rlt_gt, (Rmult_lt_reg_r (90 ^ 100)); [apply pow_lt; lra|].
  rewrite Rmult_assoc, Rinv_l, Rmult_1_r by (apply pow_nonzero; lra).
  rewrite !pow_IZR, <- mult_IZR. apply IZR_lt. reflexivity.
Qed.
Lemma exp_pow_n : forall n x, exp (INR n * x) = exp x ^ n.
Proof.
  induction n as [|n IH]; intro x.
  - cbn. rewrite Rmult_0_l. apply exp_0.
  - rewrite S_INR, Rmult_plus_distr_r, Rmult_1_l, exp_plus, IH. cbn. ring.
Qed.
Lemma exp_big : exp (10/9) > 3.
Proof.
  assert (E : exp (10/9) = exp (1/90) ^ 100).
  { replace (10/9) with (INR 100 * (1/90)) by (rewrite INR_IZR_INZ; cbn; lra). now rewrite exp_pow_n. }
  rewrite E. apply Rlt_gt, Rlt_le_trans with ((91/90) ^ 100); [exact pow_gt|].
  apply pow_incr. split; [lra|]. pose proof (exp_ineq1_le (1/90)). lra.
Qed.
