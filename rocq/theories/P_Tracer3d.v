(** C59: transport of 3D tracers. *)
From Coq Require Import Reals List Bool Lra.
From Verif Require Import Forms_Model Forms_Proofs Forms3d_Model Forms3d_Spec.
Import ListNotations.
Open Scope R_scope.

Ltac half := replace 0.5 with (1/2) by lra.

Section Lemmas.
Context {V F E : Type}.
Variable M : mesh3 V F E.
Implicit Types (c phi : sfield3 V F E).

Lemma jump3_eq : forall c f, jump3 M c f = scal3 (jump (a_f c f)) (g_nf M f).
Proof.
  intros c f. unfold jump3, nrm, jump, add3, scal3, opp3. destruct (g_nf M f); cbn. f_equal; ring.
Qed.
Lemma jump_const : forall (k : R) (f : F), jump (a_f (const3 (V:=V) (E:=E) k) f) = 0.
Proof. intros. unfold jump. cbn. ring. Qed.
Lemma c_up_const : forall K (k : R) (f : F) un, c_up K (const3 (V:=V) (E:=E) k) f un = k.
Proof. intros. unfold c_up. cbn [const3 a_f]. ring. Qed.
End Lemmas.

(** Linear combinations of integrals: [lin] proves an equation between sums of integrals
    over the same measure pointwise. *)
Lemma int_pt : forall {X} (l : list X) w g h, (forall x, In x l -> g x = h x) -> integral l w g = integral l w h.
Proof. intros. now apply integral_ext. Qed.

Section Tracer3d.
Context {V F E : Type}.
Variable M : mesh3 V F E.
Variable K : tenv3 V F E.
Local Notation KS := (const3 (V:=V) (F:=F) (E:=E)).

(* ------------------------------------------------------------------ *)
(** ** Conservation *)

(** Outward tracer flux at the free surface and at a lateral boundary point. *)
Definition surf_out (c : sfield3 V F E) (e : E) : R :=
  a_e c e * ((match full_uv K with
              | Some uv => if k_symm K then doth (val_e uv e) (g_ne M e) else 0
              | None => 0 end)
             + (match vertvelo K with Some w => a_e w e * c2 (g_ne M e) | None => 0 end)).
Definition lat_out (c : sfield3 V F E) (e : E) : R :=
  match full_uv K with
  | Some uv => if k_hdg K then adv_lat M K (KS 1) c uv e else 0
  | None => 0 end.

(** Total amount of tracer: advection changes it only through the surface and the lateral
    boundaries. Interior facets, upwinding and the stabilisation move tracer between
    cells. *)
Theorem C59_advection_budget : forall c,
  hor_adv M K (KS 1) c + ver_adv M K (KS 1) c
  = - ds_surf M (surf_out c) - ds_lat M (lat_out c).
Proof.
  intro c.
  assert (HH : hor_adv M K (KS 1) c
    = - ds_surf M (fun e => a_e c e * match full_uv K with
              | Some uv => if k_symm K then doth (val_e uv e) (g_ne M e) else 0 | None => 0 end)
      - ds_lat M (lat_out c)).
  { unfold hor_adv, lat_out. destruct (full_uv K) as [uv|].
    2:{ unfold ds_surf, ds_lat. rewrite !integral_zero; intros; ring. }
    unfold dx3. rewrite integral_zero.
    2:{ intros p _. unfold dot3. cbn. ring. }
    assert (Z : forall g : F -> R, (forall f, g f = 0) -> dS_v M g + dS_h M g = 0).
    { intros g Hg. unfold dS_v, dS_h. rewrite !integral_zero; auto. ring. }
    rewrite Z.
    2:{ intro f. rewrite jump3_eq, jump_const. unfold dot3, scal3. cbn. ring. }
    assert (L : match k_lax K with
                | None => 0
                | Some lf =>
                    dS_v M (fun f => 0.5 * Rabs (doth (avg3 uv f) (nrm M f false)) * lf * (jump (a_f (KS 1) f) * jump (a_f c f)))
                    + dS_h M (fun f => 0.5 * Rabs (doth (avg3 uv f) (nrm M f false)) * lf * (jump (a_f (KS 1) f) * jump (a_f c f)))
                end = 0).
    { destruct (k_lax K); [|reflexivity]. apply Z. intro f. rewrite jump_const. ring. }
    cbv zeta. rewrite L.
    assert (S : (if k_symm K then ds_surf M (fun e => a_e c e * doth (val_e uv e) (g_ne M e) * a_e (KS 1) e) else 0)
                = ds_surf M (fun e => a_e c e * (if k_symm K then doth (val_e uv e) (g_ne M e) else 0))).
    { unfold ds_surf. destruct (k_symm K).
      - apply integral_ext. intros e _. cbn. ring.
      - symmetry. apply integral_zero. intros; ring. }
    rewrite S. unfold ds_lat. destruct (k_hdg K).
    - change (fun e => adv_lat M K (KS 1) c uv e) with (adv_lat M K (KS 1) c uv). ring.
    - rewrite (integral_zero (g_lat M)) by reflexivity. ring. }
  assert (HV : ver_adv M K (KS 1) c
    = - ds_surf M (fun e => a_e c e * match vertvelo K with Some w => a_e w e * c2 (g_ne M e) | None => 0 end)).
  { unfold ver_adv. destruct (vertvelo K) as [w|].
    2:{ unfold ds_surf. rewrite integral_zero; intros; ring. }
    cbv zeta. unfold dx3. rewrite integral_zero.
    2:{ intros p _. cbn. ring. }
    assert (Z : forall g : F -> R, (forall f, g f = 0) -> dS_h M g = 0).
    { intros g Hg. unfold dS_h. rewrite !integral_zero; auto. }
    rewrite Z.
    2:{ intro f. rewrite jump3_eq, jump_const. cbn. ring. }
    assert (L : match k_lax K with
                | None => 0
                | Some lf => dS_h M (fun f => 0.5 * Rabs (avg (a_f w f) * c2 (nrm M f false)) * lf * (jump (a_f (KS 1) f) * jump (a_f c f)))
                end = 0).
    { destruct (k_lax K); [|reflexivity]. apply Z. intro f. rewrite jump_const. ring. }
    rewrite L.
    { unfold ds_surf. rewrite (integral_ext (g_surf M) (g_we M) (fun e => a_e c e * a_e w e * c2 (g_ne M e) * a_e (KS 1) e)
               (fun e => a_e c e * (a_e w e * c2 (g_ne M e)))) by (intros; cbn; ring).
      destruct (k_vdg K); ring. } }
  rewrite HH, HV. unfold ds_surf.
  rewrite (integral_ext (g_surf M) (g_we M) (surf_out c)
    (fun e => a_e c e * match full_uv K with
              | Some uv => if k_symm K then doth (val_e uv e) (g_ne M e) else 0 | None => 0 end
             + a_e c e * match vertvelo K with Some w => a_e w e * c2 (g_ne M e) | None => 0 end)).
  2:{ intros e _. unfold surf_out. ring. }
  rewrite integral_plus. ring.
Qed.

(** Vertical diffusion never changes the total; horizontal diffusion does so by a flux
    through sloping bottoms and surfaces (the code says so in a comment). *)
Theorem C59_diffusion_budget : forall c,
  ver_diff M K (KS 1) c = 0 /\
  hor_diff M K (KS 1) c
  = match k_muh K with
    | None => 0
    | Some mu => let out e := a_e mu e * doth (a_ge c e) (g_ne M e) in ds_bottom M out + ds_surf M out
    end.
Proof.
  intro c. split.
  - unfold ver_diff. destruct (k_muv K) as [mu|]; [|reflexivity]. unfold dx3, dS_h. rewrite integral_zero.
    2:{ intros p _. cbn. ring. }
    destruct (k_vdg K); [|ring]. rewrite integral_zero; [ring|]. intros f _. cbv zeta. rewrite !jump3_eq, jump_const.
    unfold avg. cbn. ring.
  - unfold hor_diff. destruct (k_muh K) as [mu|]; [|reflexivity]. cbv zeta. unfold dx3. rewrite integral_zero.
    2:{ intros p _. unfold dot3, hflux. cbn. ring. }
    assert (Z : forall g : F -> R, (forall f, g f = 0) -> dS_h M g + dS_v M g = 0).
    { intros g Hg. unfold dS_v, dS_h. rewrite !integral_zero; auto. ring. }
    rewrite Z.
    2:{ intro f. rewrite !jump3_eq, jump_const. unfold dot3, hflux, scal3, add3. cbn. ring. }
    assert (B : forall l, integral l (g_we M) (fun e => - (dot3 (hflux (a_e mu e) (a_ge c e)) (g_ne M e) * a_e (KS 1) e))
                = - integral l (g_we M) (fun e => a_e mu e * doth (a_ge c e) (g_ne M e))).
    { intro l. rewrite <- integral_opp. apply integral_ext. intros e _. unfold dot3, hflux, doth. cbn. ring. }
    unfold ds_bottom, ds_surf. rewrite !B. destruct (k_hdg K); ring.
Qed.

(** No sources, no open lateral boundary, no water through the free surface, and a flat
    bottom and surface where there is horizontal diffusion: the total is conserved. *)
Theorem C59_conserved : forall c,
  k_source K = None -> (forall e, In e (g_lat M) -> k_bnd K (g_marker M e) = None) ->
  (forall e, In e (g_surf M) -> surf_out c e = 0) ->
  (k_muh K <> None -> forall e, In e (g_surf M) \/ In e (g_bot M) -> c0 (g_ne M e) = 0 /\ c1 (g_ne M e) = 0) ->
  tracer_residual3 M K (KS 1) c = 0.
Proof.
  intros c Hs Hl Hf Hm. unfold tracer_residual3, tsource. rewrite Hs, C59_advection_budget.
  destruct (C59_diffusion_budget c) as (-> & ->).
  assert (D : match k_muh K with None => 0 | Some mu =>
     let out e := a_e mu e * doth (a_ge c e) (g_ne M e) in ds_bottom M out + ds_surf M out end = 0).
  { destruct (k_muh K) as [mu|]; [|reflexivity]. cbv zeta. unfold ds_bottom, ds_surf. rewrite !integral_zero; [ring| |];
      intros e He; (destruct (Hm ltac:(discriminate) e ltac:(tauto)) as (-> & ->) || idtac);
      unfold doth; destruct (Hm ltac:(discriminate) e ltac:(tauto)) as (-> & ->); ring. }
  rewrite D. unfold ds_surf, ds_lat. rewrite (integral_zero (g_surf M)) by exact Hf.
  rewrite (integral_zero (g_lat M)).
  2:{ intros e He. unfold lat_out, adv_lat. destruct (full_uv K); [|reflexivity]. rewrite (Hl e He). now destruct (k_hdg K). }
  ring.
Qed.

(* ------------------------------------------------------------------ *)
(** ** Constants *)

Lemma w_lhs_sub : forall phi w wm, w_lhs M phi (sub_s w wm) = w_lhs M phi w - w_lhs M phi wm.
Proof.
  intros phi w wm. unfold w_lhs, ds_surf, dS_h, dx3.
  rewrite (integral_ext (g_surf M) (g_we M) _ (fun e => a_e w e * a_e phi e * c2 (g_ne M e) - a_e wm e * a_e phi e * c2 (g_ne M e)))
    by (intros; cbn; ring).
  rewrite (integral_ext (g_hor M) (g_wf M) _ (fun f => avg (a_f w f) * c2 (jump3 M phi f) - avg (a_f wm f) * c2 (jump3 M phi f)))
    by (intros; unfold avg; cbn; ring).
  rewrite (integral_ext (g_cells M) (g_wv M) _ (fun p => c2 (a_gv phi p) * a_v w p - c2 (a_gv phi p) * a_v wm p))
    by (intros; cbn; ring).
  rewrite !integral_minus. ring.
Qed.

Lemma ver_const : forall k phi w, vertvelo K = Some w -> k_vdg K = true ->
  ver_adv M K phi (KS k) = - (k * w_lhs M phi w).
Proof.
  intros k phi w Hw Hv. unfold ver_adv. rewrite Hw, Hv. cbv zeta. unfold w_lhs, dx3, dS_h, ds_surf.
  rewrite (integral_ext (g_cells M) (g_wv M) _ (fun p => k * (c2 (a_gv phi p) * a_v w p))) by (intros; cbn; ring).
  rewrite (integral_ext (g_hor M) (g_wf M) (fun f => c_up K (KS k) f _ * _ * _) (fun f => k * (avg (a_f w f) * c2 (jump3 M phi f))))
    by (intros; rewrite c_up_const; ring).
  rewrite (integral_ext (g_surf M) (g_we M) _ (fun e => k * (a_e w e * a_e phi e * c2 (g_ne M e)))) by (intros; cbn; ring).
  rewrite !integral_scal.
  assert (L : match k_lax K with None => 0 | Some lf =>
    integral (g_hor M) (g_wf M) (fun f => 0.5 * Rabs (avg (a_f w f) * c2 (nrm M f false)) * lf * (jump (a_f phi f) * jump (a_f (KS k) f))) end = 0).
  { destruct (k_lax K); [|reflexivity]. apply integral_zero. intros f _. rewrite jump_const. ring. }
  rewrite L. ring.
Qed.

(** what the boundary does to a constant *)
Definition lat_defect (ob : nat -> bool) (k : R) (phi : sfield3 V F E) (uv : vfield3 V F E) (e : E) : R :=
  k * (if ob (g_marker M e) then doth (val_e uv e) (g_ne M e) * a_e phi e else 0) - adv_lat M K phi (KS k) uv e.

Lemma hor_const : forall ob k phi uv, full_uv K = Some uv -> k_hdg K = true ->
  surface_velocity M (k_symm K) uv ->
  hor_adv M K phi (KS k) = k * w_rhs M ob phi uv + ds_lat M (lat_defect ob k phi uv).
Proof.
  intros ob k phi uv Hu Hh Hs. unfold hor_adv. rewrite Hu, Hh. cbv zeta. unfold w_rhs. cbv zeta. unfold dx3, dS_v, dS_h, ds_surf, ds_lat.
  rewrite (integral_ext (g_cells M) (g_wv M) _ (fun p => k * dot3 (val_v uv p) (a_gv phi p))) by (intros; cbn; ring).
  assert (A : forall l, integral l (g_wf M) (fun f => c_up K (KS k) f (doth (avg3 uv f) (nrm M f false)) * dot3 (avg3 uv f) (jump3 M phi f))
            = k * integral l (g_wf M) (fun f => dot3 (avg3 uv f) (jump3 M phi f))).
  { intro l. rewrite <- integral_scal. apply integral_ext. intros. now rewrite c_up_const. }
  rewrite !A.
  assert (L : match k_lax K with None => 0 | Some lf =>
    integral (g_ver M) (g_wf M) (fun f => 0.5 * Rabs (doth (avg3 uv f) (nrm M f false)) * lf * (jump (a_f phi f) * jump (a_f (KS k) f)))
    + integral (g_hor M) (g_wf M) (fun f => 0.5 * Rabs (doth (avg3 uv f) (nrm M f false)) * lf * (jump (a_f phi f) * jump (a_f (KS k) f))) end = 0).
  { destruct (k_lax K); [|reflexivity]. rewrite !integral_zero; [ring| |]; intros f _; rewrite jump_const; ring. }
  rewrite L.
  assert (S : (if k_symm K then integral (g_surf M) (g_we M) (fun e => a_e (KS k) e * doth (val_e uv e) (g_ne M e) * a_e phi e) else 0)
            = k * integral (g_surf M) (g_we M) (fun e => dot3 (val_e uv e) (g_ne M e) * a_e phi e)).
  { rewrite <- integral_scal. unfold surface_velocity in Hs. destruct (k_symm K).
    - apply integral_ext. intros e He. specialize (Hs e He). unfold dot3, doth. cbn [const3 a_e].
      assert (c2 (val_e uv e) * c2 (g_ne M e) = 0) as -> by exact Hs. ring.
    - symmetry. apply integral_zero. intros e He. rewrite (Hs e He). ring. }
  rewrite S.
  assert (Q : integral (g_lat M) (g_we M) (lat_defect ob k phi uv)
    = k * integral (g_lat M) (g_we M) (fun e => if ob (g_marker M e) then doth (val_e uv e) (g_ne M e) * a_e phi e else 0)
      - integral (g_lat M) (g_we M) (adv_lat M K phi (KS k) uv)).
  { unfold lat_defect. rewrite integral_minus, integral_scal. reflexivity. }
  rewrite Q. rewrite integral_scal. ring.
Qed.

(** A uniform tracer: if the vertical velocity satisfies the discrete continuity equation
    for the test function, advection acts on the constant [k] exactly like the motion of
    the mesh, [k] times the flux form of the mesh velocity, plus what the boundary
    conditions add. *)
Theorem C59_constants_formula : forall ob k phi uv w,
  full_uv K = Some uv -> k_w K = Some w -> k_hdg K = true -> k_vdg K = true ->
  surface_velocity M (k_symm K) uv -> continuity M ob uv w phi ->
  hor_adv M K phi (KS k) + ver_adv M K phi (KS k)
  = k * (match k_wmesh K with Some wm => w_lhs M phi wm | None => 0 end) + ds_lat M (lat_defect ob k phi uv).
Proof.
  intros ob k phi uv w Hu Hw Hh Hv Hs Hc. rewrite (hor_const ob k phi uv Hu Hh Hs). unfold continuity in Hc.
  destruct (k_wmesh K) as [wm|] eqn:Em.
  - rewrite (ver_const k phi (sub_s w wm)); [|unfold vertvelo; rewrite Hw, Em; reflexivity|exact Hv].
    rewrite w_lhs_sub, Hc. ring.
  - rewrite (ver_const k phi w); [|unfold vertvelo; rewrite Hw, Em; reflexivity|exact Hv]. rewrite Hc. ring.
Qed.

Lemma lat_defect_zero : forall ob k phi uv, same_open M ob (k_bnd K) -> ext_constant M (k_bnd K) k ->
  ds_lat M (lat_defect ob k phi uv) = 0.
Proof.
  intros ob k phi uv Ho Hx. unfold ds_lat. apply integral_zero. intros e He. unfold lat_defect, adv_lat.
  specialize (Ho e He). destruct (k_bnd K (g_marker M e)) as [tb|] eqn:Eb.
  - assert (ob (g_marker M e) = true) as -> by (apply Ho; discriminate). cbv zeta. cbn [const3 a_e].
    assert (ext_value tb k e = k) as ->.
    { unfold ext_value. destruct (x_value tb) as [v|] eqn:Ev; [|reflexivity]. exact (Hx e tb v He Eb Ev). }
    ring.
  - destruct (ob (g_marker M e)); [exfalso; apply (proj1 Ho); reflexivity|]. ring.
Qed.

Lemma diff_const : forall k phi, hor_diff M K phi (KS k) = 0 /\ ver_diff M K phi (KS k) = 0.
Proof.
  intros k phi. split.
  - unfold hor_diff. destruct (k_muh K) as [mu|]; [|reflexivity]. cbv zeta. unfold dx3, ds_bottom, ds_surf.
    rewrite (integral_zero (g_cells M)) by (intros; unfold dot3, hflux; cbn; ring).
    rewrite (integral_zero (g_bot M)) by (intros; unfold dot3, hflux; cbn; ring).
    rewrite (integral_zero (g_surf M)) by (intros; unfold dot3, hflux; cbn; ring).
    assert (Z : forall g : F -> R, (forall f, g f = 0) -> dS_h M g + dS_v M g = 0).
    { intros g Hg. unfold dS_v, dS_h. rewrite !integral_zero; auto. ring. }
    rewrite Z; [destruct (k_hdg K); ring|].
    intro f. rewrite !jump3_eq, jump_const. unfold dot3, hflux, scal3, add3. cbn. ring.
  - unfold ver_diff. destruct (k_muv K) as [mu|]; [|reflexivity]. unfold dx3, dS_h.
    rewrite (integral_zero (g_cells M)) by (intros; cbn; ring).
    rewrite (integral_zero (g_hor M)); [destruct (k_vdg K); ring|].
    intros f _. cbv zeta. rewrite !jump3_eq, jump_const. unfold avg. cbn. ring.
Qed.

(** A uniform tracer stays uniform: on a fixed mesh, with continuity, open boundaries
    where the momentum equation has them, and external values equal to the constant, the
    whole residual vanishes. *)
Theorem C59_constants_kept : forall ob k phi uv w,
  full_uv K = Some uv -> k_w K = Some w -> k_wmesh K = None -> k_source K = None ->
  k_hdg K = true -> k_vdg K = true ->
  surface_velocity M (k_symm K) uv -> continuity M ob uv w phi ->
  same_open M ob (k_bnd K) -> ext_constant M (k_bnd K) k ->
  tracer_residual3 M K phi (KS k) = 0.
Proof.
  intros ob k phi uv w Hu Hw Hm Hq Hh Hv Hs Hc Ho Hx. unfold tracer_residual3, tsource.
  rewrite (C59_constants_formula ob k phi uv w Hu Hw Hh Hv Hs Hc), Hm, Hq, (lat_defect_zero ob k phi uv Ho Hx).
  destruct (diff_const k phi) as (-> & ->). ring.
Qed.

(** A boundary with conditions for the tracer but none for momentum (or the other way
    round) creates or removes tracer where water flows through it. *)
Theorem C59_constants_need_same_boundaries : forall ob k phi uv e,
  lat_defect ob k phi uv e
  = match k_bnd K (g_marker M e), ob (g_marker M e) with
    | None, false => 0
    | None, true => k * doth (val_e uv e) (g_ne M e) * a_e phi e
    | Some tb, o =>
        (if o then 0 else - (k * doth (val_e uv e) (g_ne M e) * a_e phi e))
        - (1 - upw K (doth (g_ne M e) (scal3 0.5 (add3 (val_e uv e) (ext_uv M tb (val_e uv e) e)))))
          * (ext_value tb k e - k) * doth (g_ne M e) (scal3 0.5 (add3 (val_e uv e) (ext_uv M tb (val_e uv e) e))) * a_e phi e
    end.
Proof.
  intros ob k phi uv e. unfold lat_defect, adv_lat. destruct (k_bnd K (g_marker M e)) as [tb|].
  - cbv zeta. cbn [const3 a_e]. destruct (ob (g_marker M e)); ring.
  - destruct (ob (g_marker M e)); ring.
Qed.
End Tracer3d.
