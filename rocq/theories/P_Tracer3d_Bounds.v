(** C59, continued: variance, local extrema, diffusion and boundary dictionaries of the 3D
    tracer equation. *)
From Coq Require Import Reals List Bool Lra String.
From Verif Require Import Forms_Model Forms_Proofs Forms3d_Model Forms3d_Spec P_Tracer3d.
Import ListNotations.
Open Scope R_scope.

(** upwinding: flux times the difference of the two values *)
Section Upwind.
Context {V F E : Type}.
Variable K : tenv3 V F E.
Lemma upw_pos : forall x, 0 < x -> upw K x = 1.
Proof. intros x H. unfold upw, sgn. destruct (Rlt_dec 0 x); [half; lra|lra]. Qed.
Lemma upw_neg : forall x, x < 0 -> upw K x = 0.
Proof. intros x H. unfold upw, sgn. destruct (Rlt_dec 0 x); [lra|]. destruct (Rlt_dec x 0); [half; lra|lra]. Qed.
(** upwind flux = central flux of the half square + half of |un| times the squared jump *)
Lemma upwind_square : forall (c : sfield3 V F E) f un,
  c_up K c f un * un * (a_f c f false - a_f c f true)
  = 1/2 * un * (a_f c f false * a_f c f false - a_f c f true * a_f c f true)
    + 1/2 * Rabs un * (jump (a_f c f) * jump (a_f c f)).
Proof.
  intros c f un. unfold c_up, jump. destruct (Rtotal_order un 0) as [H|[->|H]].
  - rewrite (upw_neg un H), (Rabs_left un H). field.
  - rewrite Rabs_R0. field.
  - rewrite (upw_pos un H), (Rabs_right un) by lra. field.
Qed.
(** the upwind flux of a function that is extremal where the test function is not zero *)
Lemma upwind_extremum : forall sg k (c phi : sfield3 V F E) f un,
  (forall s, sg * (a_f c f s - k) <= 0) -> (forall s, 0 <= a_f phi f s) ->
  (forall s, a_f phi f s <> 0 -> a_f c f s = k) ->
  sg * (k * un * (a_f phi f false - a_f phi f true)) <= sg * (c_up K c f un * un * (a_f phi f false - a_f phi f true)).
Proof.
  intros sg k c phi f un Hc Hp Hk. pose proof (Hc true) as C1. pose proof (Hc false) as C0.
  pose proof (Hp true) as P1. pose proof (Hp false) as P0. unfold c_up.
  destruct (Rtotal_order un 0) as [H|[->|H]].
  - rewrite (upw_neg un H). destruct (Req_dec (a_f phi f true) 0) as [Z|Z].
    + rewrite Z in *.
      assert (0 <= (sg * (a_f c f true - k)) * un * a_f phi f false).
      { apply Rmult_le_pos; [|lra]. replace ((sg * (a_f c f true - k)) * un) with ((- (sg * (a_f c f true - k))) * (- un)) by ring.
        apply Rmult_le_pos; lra. }
      nra.
    + rewrite (Hk true Z). right. ring.
  - right. ring.
  - rewrite (upw_pos un H). destruct (Req_dec (a_f phi f false) 0) as [Z|Z].
    + rewrite Z in *.
      assert (0 <= (- (sg * (a_f c f false - k))) * un * a_f phi f true).
      { apply Rmult_le_pos; [|lra]. apply Rmult_le_pos; lra. }
      nra.
    + rewrite (Hk false Z). right. ring.
Qed.
Lemma jumps_extremum : forall sg k (c phi : sfield3 V F E) f,
  (forall s, sg * (a_f c f s - k) <= 0) -> (forall s, 0 <= a_f phi f s) ->
  (forall s, a_f phi f s <> 0 -> a_f c f s = k) ->
  0 <= sg * (jump (a_f phi f) * jump (a_f c f)).
Proof.
  intros sg k c phi f Hc Hp Hk. pose proof (Hc true) as C1. pose proof (Hc false) as C0.
  pose proof (Hp true) as P1. pose proof (Hp false) as P0. unfold jump.
  destruct (Req_dec (a_f phi f true) 0) as [Z|Z], (Req_dec (a_f phi f false) 0) as [Z'|Z'].
  - rewrite Z, Z'. right. ring.
  - rewrite Z, (Hk false Z') in *. assert (0 <= a_f phi f false * (- (sg * (a_f c f true - k)))) by (apply Rmult_le_pos; lra). nra.
  - rewrite Z', (Hk true Z) in *. assert (0 <= a_f phi f true * (- (sg * (a_f c f false - k)))) by (apply Rmult_le_pos; lra). nra.
  - rewrite (Hk true Z), (Hk false Z'). right. ring.
Qed.
End Upwind.

Section Bounds3d.
Context {V F E : Type}.
Variable M : mesh3 V F E.
Variable K : tenv3 V F E.
Local Notation KS := (const3 (V:=V) (F:=F) (E:=E)).

(** The horizontal velocity has no vertical component. *)
Definition horizontal (uv : vfield3 V F E) : Prop :=
  (forall p, c2 (val_v uv p) = 0) /\ (forall f s, c2 (val_f uv f s) = 0) /\ (forall e, c2 (val_e uv e) = 0).

Lemma doth_flux : forall uv (phi : sfield3 V F E) f, horizontal uv ->
  dot3 (avg3 uv f) (jump3 M phi f) = doth (avg3 uv f) (nrm M f false) * (a_f phi f false - a_f phi f true).
Proof.
  intros uv phi f (_ & H & _). rewrite jump3_eq. unfold dot3, doth, nrm, jump.
  assert (c2 (avg3 uv f) = 0) as ->.
  { unfold avg3, scal3, add3. cbn [c2]. rewrite !H. ring. }
  unfold scal3, opp3. cbn [c0 c1 c2]. ring.
Qed.
Lemma vflux : forall (phi : sfield3 V F E) f, c2 (jump3 M phi f) = c2 (nrm M f false) * (a_f phi f false - a_f phi f true).
Proof. intros phi f. rewrite jump3_eq. unfold nrm, jump, scal3, opp3. cbn [c2]. ring. Qed.

(** Loss of variance at interior facets: upwinding and the stabilisation. *)
Definition lf_factor : R := match k_lax K with Some lf => lf | None => 0 end.
Definition hor_loss (uv : vfield3 V F E) (c : sfield3 V F E) (f : F) : R :=
  1/2 * (1 + lf_factor) * Rabs (doth (avg3 uv f) (nrm M f false)) * (jump (a_f c f) * jump (a_f c f)).
Definition ver_loss (w c : sfield3 V F E) (f : F) : R :=
  1/2 * (1 + lf_factor) * Rabs (avg (a_f w f) * c2 (nrm M f false)) * (jump (a_f c f) * jump (a_f c f)).
(** half the square, carried by the water through the surface *)
Definition surf_square (uv : vfield3 V F E) (w c : sfield3 V F E) (e : E) : R :=
  1/2 * (a_e c e * a_e c e) * surface_flux M uv w e.
Definition lat_square (ob : nat -> bool) (uv : vfield3 V F E) (c : sfield3 V F E) (e : E) : R :=
  adv_lat M K c c uv e - (if ob (g_marker M e) then 1/2 * (a_e c e * a_e c e) * doth (val_e uv e) (g_ne M e) else 0).

Lemma hor_square : forall ob uv c, full_uv K = Some uv -> k_hdg K = true -> k_symm K = true -> horizontal uv ->
  hor_adv M K c c = 1/2 * w_rhs M ob (sq3 c) uv - dS_v M (hor_loss uv c) - dS_h M (hor_loss uv c)
    - ds_surf M (fun e => 1/2 * (a_e c e * a_e c e) * doth (val_e uv e) (g_ne M e)) - ds_lat M (lat_square ob uv c).
Proof.
  intros ob uv c Hu Hd Hs Hz. unfold hor_adv. rewrite Hu, Hd, Hs. cbv zeta. unfold w_rhs. cbv zeta.
  unfold dx3, dS_v, dS_h, ds_surf, ds_lat.
  rewrite (integral_ext (g_cells M) (g_wv M) _ (fun p => 1/2 * dot3 (val_v uv p) (a_gv (sq3 c) p))).
  2:{ intros p _. cbn [sq3 a_gv]. unfold dot3, scal3. cbn [c0 c1 c2]. field. }
  assert (A : forall l, integral l (g_wf M) (fun f => c_up K c f (doth (avg3 uv f) (nrm M f false)) * dot3 (avg3 uv f) (jump3 M c f))
    = 1/2 * integral l (g_wf M) (fun f => dot3 (avg3 uv f) (jump3 M (sq3 c) f))
      + integral l (g_wf M) (fun f => 1/2 * Rabs (doth (avg3 uv f) (nrm M f false)) * (jump (a_f c f) * jump (a_f c f)))).
  { intro l. rewrite <- integral_scal, <- integral_plus. apply integral_ext. intros f _.
    rewrite !doth_flux by exact Hz. rewrite <- Rmult_assoc, upwind_square. cbn [sq3 a_f]. ring. }
  rewrite !A.
  assert (L : forall l, integral l (g_wf M) (hor_loss uv c)
    = integral l (g_wf M) (fun f => 1/2 * Rabs (doth (avg3 uv f) (nrm M f false)) * (jump (a_f c f) * jump (a_f c f)))
      + match k_lax K with None => 0 | Some lf => integral l (g_wf M)
          (fun f => 0.5 * Rabs (doth (avg3 uv f) (nrm M f false)) * lf * (jump (a_f c f) * jump (a_f c f))) end).
  { intro l. unfold hor_loss, lf_factor. destruct (k_lax K) as [lf|].
    - rewrite <- integral_plus. apply integral_ext. intros. half. ring.
    - rewrite (Rplus_0_r (integral _ _ _)). apply integral_ext. intros. ring. }
  rewrite !L.
  rewrite (integral_ext (g_surf M) (g_we M) (fun e => a_e c e * doth (val_e uv e) (g_ne M e) * a_e c e)
    (fun e => 2 * (1/2 * (a_e c e * a_e c e) * doth (val_e uv e) (g_ne M e)))) by (intros; field).
  rewrite (integral_ext (g_surf M) (g_we M) (fun e => dot3 (val_e uv e) (g_ne M e) * a_e (sq3 c) e)
    (fun e => 2 * (1/2 * (a_e c e * a_e c e) * doth (val_e uv e) (g_ne M e)))).
  2:{ intros e _. destruct Hz as (_ & _ & Hz). unfold dot3, doth. rewrite (Hz e). cbn [sq3 a_e]. field. }
  assert (Q : integral (g_lat M) (g_we M) (lat_square ob uv c)
    = integral (g_lat M) (g_we M) (adv_lat M K c c uv)
      - 1/2 * integral (g_lat M) (g_we M) (fun e => if ob (g_marker M e) then doth (val_e uv e) (g_ne M e) * a_e (sq3 c) e else 0)).
  { unfold lat_square. rewrite integral_minus, <- integral_scal. f_equal. apply integral_ext. intros e _.
    destruct (ob (g_marker M e)); cbn [sq3 a_e]; field. }
  rewrite Q. rewrite !integral_scal. destruct (k_lax K); field.
Qed.

Lemma ver_square : forall w c, vertvelo K = Some w -> k_vdg K = true ->
  ver_adv M K c c = - (1/2) * w_lhs M (sq3 c) w - dS_h M (ver_loss w c)
    - ds_surf M (fun e => 1/2 * (a_e c e * a_e c e) * (a_e w e * c2 (g_ne M e))).
Proof.
  intros w c Hw Hd. unfold ver_adv. rewrite Hw, Hd. cbv zeta. unfold w_lhs, dx3, dS_h, ds_surf.
  rewrite (integral_ext (g_cells M) (g_wv M) (fun p => a_v c p * a_v w p * c2 (a_gv c p)) (fun p => 1/2 * (c2 (a_gv (sq3 c) p) * a_v w p))).
  2:{ intros p _. cbn [sq3 a_gv]. unfold scal3. cbn [c2]. field. }
  assert (A : integral (g_hor M) (g_wf M) (fun f => c_up K c f (avg (a_f w f) * c2 (nrm M f false)) * avg (a_f w f) * c2 (jump3 M c f))
    = 1/2 * integral (g_hor M) (g_wf M) (fun f => avg (a_f w f) * c2 (jump3 M (sq3 c) f))
      + integral (g_hor M) (g_wf M) (fun f => 1/2 * Rabs (avg (a_f w f) * c2 (nrm M f false)) * (jump (a_f c f) * jump (a_f c f)))).
  { rewrite <- integral_scal, <- integral_plus. apply integral_ext. intros f _. rewrite !vflux.
    transitivity (c_up K c f (avg (a_f w f) * c2 (nrm M f false)) * (avg (a_f w f) * c2 (nrm M f false)) * (a_f c f false - a_f c f true)); [ring|].
    rewrite upwind_square. cbn [sq3 a_f]. ring. }
  rewrite A.
  assert (L : integral (g_hor M) (g_wf M) (ver_loss w c)
    = integral (g_hor M) (g_wf M) (fun f => 1/2 * Rabs (avg (a_f w f) * c2 (nrm M f false)) * (jump (a_f c f) * jump (a_f c f)))
      + match k_lax K with None => 0 | Some lf => integral (g_hor M) (g_wf M)
          (fun f => 0.5 * Rabs (avg (a_f w f) * c2 (nrm M f false)) * lf * (jump (a_f c f) * jump (a_f c f))) end).
  { unfold ver_loss, lf_factor. destruct (k_lax K) as [lf|].
    - rewrite <- integral_plus. apply integral_ext. intros. half. ring.
    - rewrite (Rplus_0_r (integral _ _ _)). apply integral_ext. intros. ring. }
  rewrite L.
  rewrite (integral_ext (g_surf M) (g_we M) (fun e => a_e c e * a_e w e * c2 (g_ne M e) * a_e c e)
    (fun e => 2 * (1/2 * (a_e c e * a_e c e) * (a_e w e * c2 (g_ne M e))))) by (intros; field).
  rewrite (integral_ext (g_surf M) (g_we M) (fun e => a_e w e * a_e (sq3 c) e * c2 (g_ne M e))
    (fun e => 2 * (1/2 * (a_e c e * a_e c e) * (a_e w e * c2 (g_ne M e))))) by (intros; cbn [sq3 a_e]; field).
  rewrite !integral_scal. destruct (k_lax K); field.
Qed.

(** Variance budget of advection on a fixed mesh: if the velocities satisfy the discrete
    continuity equation tested with the square of the tracer, the tracer's variance
    changes by the fluxes through surface and lateral boundaries, minus a loss at every
    interior facet with a jump. *)
Theorem C59_variance_budget : forall ob uv w c,
  full_uv K = Some uv -> k_w K = Some w -> k_wmesh K = None ->
  k_hdg K = true -> k_vdg K = true -> k_symm K = true -> horizontal uv ->
  continuity M ob uv w (sq3 c) ->
  hor_adv M K c c + ver_adv M K c c
  = - dS_v M (hor_loss uv c) - dS_h M (hor_loss uv c) - dS_h M (ver_loss w c)
    - ds_surf M (surf_square uv w c) - ds_lat M (lat_square ob uv c).
Proof.
  intros ob uv w c Hu Hw Hm Hh Hv Hs Hz Hc.
  rewrite (hor_square ob uv c Hu Hh Hs Hz), (ver_square w c); [|unfold vertvelo; now rewrite Hw, Hm|exact Hv].
  unfold continuity in Hc. rewrite Hc.
  assert (S : ds_surf M (surf_square uv w c)
    = ds_surf M (fun e => 1/2 * (a_e c e * a_e c e) * doth (val_e uv e) (g_ne M e))
      + ds_surf M (fun e => 1/2 * (a_e c e * a_e c e) * (a_e w e * c2 (g_ne M e)))).
  { unfold ds_surf. rewrite <- integral_plus. apply integral_ext. intros. unfold surf_square, surface_flux. ring. }
  rewrite S. field.
Qed.

(** ... and so, with closed lateral boundaries and no water through the free surface,
    advection never increases it. *)
Theorem C59_variance_not_growing : forall ob uv w c,
  positive3 M -> 0 <= lf_factor ->
  full_uv K = Some uv -> k_w K = Some w -> k_wmesh K = None ->
  k_hdg K = true -> k_vdg K = true -> k_symm K = true -> horizontal uv ->
  continuity M ob uv w (sq3 c) ->
  (forall e, In e (g_lat M) -> k_bnd K (g_marker M e) = None /\ ob (g_marker M e) = false) ->
  (forall e, In e (g_surf M) -> surface_flux M uv w e = 0) ->
  hor_adv M K c c + ver_adv M K c c <= 0.
Proof.
  intros ob uv w c (_ & Ph & Pv & _) Hl Hu Hw Hm Hh Hv Hs Hz Hc Hb Hf.
  rewrite (C59_variance_budget ob uv w c Hu Hw Hm Hh Hv Hs Hz Hc).
  unfold ds_surf, ds_lat. rewrite (integral_zero (g_surf M)).
  2:{ intros e He. unfold surf_square. rewrite (Hf e He). ring. }
  rewrite (integral_zero (g_lat M)).
  2:{ intros e He. destruct (Hb e He) as (B1 & B2). unfold lat_square, adv_lat. rewrite B1, B2. ring. }
  assert (P : forall y, 0 <= y * y) by (intro y; nra).
  assert (A : 0 <= dS_v M (hor_loss uv c)).
  { apply integral_nonneg; intros f Hf'; [pose proof (Pv f Hf'); lra|]. unfold hor_loss.
    apply Rmult_le_pos; [apply Rmult_le_pos; [lra|apply Rabs_pos]|apply P]. }
  assert (B : 0 <= dS_h M (hor_loss uv c)).
  { apply integral_nonneg; intros f Hf'; [pose proof (Ph f Hf'); lra|]. unfold hor_loss.
    apply Rmult_le_pos; [apply Rmult_le_pos; [lra|apply Rabs_pos]|apply P]. }
  assert (C : 0 <= dS_h M (ver_loss w c)).
  { apply integral_nonneg; intros f Hf'; [pose proof (Ph f Hf'); lra|]. unfold ver_loss.
    apply Rmult_le_pos; [apply Rmult_le_pos; [lra|apply Rabs_pos]|apply P]. }
  lra.
Qed.

(* ------------------------------------------------------------------ *)
(** ** Local extrema, piecewise constant tracers *)

(** [sg] is 1 for maxima and -1 for minima: the tracer is nowhere beyond [k], and equal to
    [k] where the (piecewise constant, non-negative) test function is not zero. *)
Record extremal (sg k : R) (c phi : sfield3 V F E) : Prop := mk_extremal
  { ex_grad : forall p, In p (g_cells M) -> a_gv phi p = zero3;
    ex_beyond : forall f s, sg * (a_f c f s - k) <= 0;
    ex_pos_f : forall f s, 0 <= a_f phi f s;
    ex_pos_e : forall e, 0 <= a_e phi e;
    ex_here_f : forall f s, a_f phi f s <> 0 -> a_f c f s = k;
    ex_here_e : forall e, a_e phi e <> 0 -> a_e c e = k }.

Lemma scal_le : forall sg a b, sg * a <= sg * b -> - (sg * b) <= - (sg * a).
Proof. intros. lra. Qed.

Lemma int_sg : forall {X} (l : list X) w g h (sg : R),
  (forall x, In x l -> 0 <= w x) -> (forall x, In x l -> sg * g x <= sg * h x) ->
  sg * integral l w g <= sg * integral l w h.
Proof.
  intros X l w g h sg Hw H. rewrite <- !integral_scal. apply integral_le; assumption.
Qed.

Lemma hor_extremum : forall sg k c phi uv, positive3 M -> 0 <= lf_factor ->
  full_uv K = Some uv -> k_hdg K = true -> horizontal uv -> extremal sg k c phi ->
  sg * hor_adv M K phi c <= sg * hor_adv M K phi (KS k).
Proof.
  intros sg k c phi uv (_ & Ph & Pv & _) Hl Hu Hh Hz [G B PF PE HF HE]. unfold hor_adv. rewrite Hu, Hh. cbv zeta.
  unfold dx3. rewrite !(integral_zero (g_cells M)).
  2,3: intros p Hp; rewrite (G p Hp); unfold dot3; cbn; ring.
  assert (Wh : forall f, In f (g_hor M) -> 0 <= g_wf M f) by (intros f Hf; pose proof (Ph f Hf); lra).
  assert (Wv : forall f, In f (g_ver M) -> 0 <= g_wf M f) by (intros f Hf; pose proof (Pv f Hf); lra).
  assert (A : forall l, (forall f, In f l -> 0 <= g_wf M f) ->
    sg * integral l (g_wf M) (fun f => c_up K (KS k) f (doth (avg3 uv f) (nrm M f false)) * dot3 (avg3 uv f) (jump3 M phi f))
    <= sg * integral l (g_wf M) (fun f => c_up K c f (doth (avg3 uv f) (nrm M f false)) * dot3 (avg3 uv f) (jump3 M phi f))).
  { intros l Hw. apply int_sg; [exact Hw|]. intros f _. rewrite c_up_const, !doth_flux by exact Hz. rewrite <- !Rmult_assoc.
    pose proof (upwind_extremum K sg k c phi f (doth (avg3 uv f) (nrm M f false)) (B f) (PF f) (HF f)) as U. lra. }
  assert (LL : forall l, (forall f, In f l -> 0 <= g_wf M f) -> forall lf, 0 <= lf ->
    sg * integral l (g_wf M) (fun f => 0.5 * Rabs (doth (avg3 uv f) (nrm M f false)) * lf * (jump (a_f phi f) * jump (a_f (KS k) f)))
    <= sg * integral l (g_wf M) (fun f => 0.5 * Rabs (doth (avg3 uv f) (nrm M f false)) * lf * (jump (a_f phi f) * jump (a_f c f)))).
  { intros l Hw lf Hlf. apply int_sg; [exact Hw|]. intros f _. rewrite jump_const.
    pose proof (jumps_extremum sg k c phi f (B f) (PF f) (HF f)) as J.
    assert (0 <= 0.5 * Rabs (doth (avg3 uv f) (nrm M f false)) * lf * (sg * (jump (a_f phi f) * jump (a_f c f)))).
    { apply Rmult_le_pos; [|exact J]. apply Rmult_le_pos; [|exact Hlf]. apply Rmult_le_pos; [lra|apply Rabs_pos]. }
    nra. }
  assert (LA : ds_lat M (adv_lat M K phi c uv) = ds_lat M (adv_lat M K phi (KS k) uv)).
  { apply integral_ext. intros e He. unfold adv_lat. destruct (k_bnd K (g_marker M e)) as [tb|]; [|reflexivity]. cbv zeta.
    destruct (Req_dec (a_e phi e) 0) as [Z|Z]; [rewrite Z; ring|]. rewrite (HE e Z). reflexivity. }
  assert (S : ds_surf M (fun e => a_e c e * doth (val_e uv e) (g_ne M e) * a_e phi e)
            = ds_surf M (fun e => a_e (KS k) e * doth (val_e uv e) (g_ne M e) * a_e phi e)).
  { apply integral_ext. intros e He. destruct (Req_dec (a_e phi e) 0) as [Z|Z]; [rewrite Z; ring|]. rewrite (HE e Z). reflexivity. }
  rewrite LA, S.
  pose proof (A (g_ver M) Wv) as A1. pose proof (A (g_hor M) Wh) as A2.
  unfold dS_v, dS_h. unfold lf_factor in Hl. destruct (k_lax K) as [lf|].
  - pose proof (LL (g_ver M) Wv lf Hl) as L1. pose proof (LL (g_hor M) Wh lf Hl) as L2. lra.
  - lra.
Qed.

Lemma ver_extremum : forall sg k c phi w, positive3 M -> 0 <= lf_factor ->
  vertvelo K = Some w -> k_vdg K = true -> extremal sg k c phi ->
  sg * ver_adv M K phi c <= sg * ver_adv M K phi (KS k).
Proof.
  intros sg k c phi w (_ & Ph & _) Hl Hw Hv [G B PF PE HF HE]. unfold ver_adv. rewrite Hw, Hv. cbv zeta.
  unfold dx3. rewrite !(integral_zero (g_cells M)).
  2,3: intros p Hp; rewrite (G p Hp); cbn; ring.
  assert (Wh : forall f, In f (g_hor M) -> 0 <= g_wf M f) by (intros f Hf; pose proof (Ph f Hf); lra).
  assert (A : sg * integral (g_hor M) (g_wf M) (fun f => c_up K (KS k) f (avg (a_f w f) * c2 (nrm M f false)) * avg (a_f w f) * c2 (jump3 M phi f))
    <= sg * integral (g_hor M) (g_wf M) (fun f => c_up K c f (avg (a_f w f) * c2 (nrm M f false)) * avg (a_f w f) * c2 (jump3 M phi f))).
  { apply int_sg; [exact Wh|]. intros f _. rewrite c_up_const, !vflux.
    pose proof (upwind_extremum K sg k c phi f (avg (a_f w f) * c2 (nrm M f false)) (B f) (PF f) (HF f)) as U. lra. }
  assert (LL : forall lf, 0 <= lf ->
    sg * integral (g_hor M) (g_wf M) (fun f => 0.5 * Rabs (avg (a_f w f) * c2 (nrm M f false)) * lf * (jump (a_f phi f) * jump (a_f (KS k) f)))
    <= sg * integral (g_hor M) (g_wf M) (fun f => 0.5 * Rabs (avg (a_f w f) * c2 (nrm M f false)) * lf * (jump (a_f phi f) * jump (a_f c f)))).
  { intros lf Hlf. apply int_sg; [exact Wh|]. intros f _. rewrite jump_const.
    pose proof (jumps_extremum sg k c phi f (B f) (PF f) (HF f)) as J.
    assert (0 <= 0.5 * Rabs (avg (a_f w f) * c2 (nrm M f false)) * lf * (sg * (jump (a_f phi f) * jump (a_f c f)))).
    { apply Rmult_le_pos; [|exact J]. apply Rmult_le_pos; [|exact Hlf]. apply Rmult_le_pos; [lra|apply Rabs_pos]. }
    nra. }
  assert (S : ds_surf M (fun e => a_e c e * a_e w e * c2 (g_ne M e) * a_e phi e)
            = ds_surf M (fun e => a_e (KS k) e * a_e w e * c2 (g_ne M e) * a_e phi e)).
  { apply integral_ext. intros e He. destruct (Req_dec (a_e phi e) 0) as [Z|Z]; [rewrite Z; ring|]. rewrite (HE e Z). reflexivity. }
  rewrite S. unfold dS_h. unfold lf_factor in Hl. destruct (k_lax K) as [lf|].
  - pose proof (LL lf Hl). lra.
  - lra.
Qed.

(** A piecewise constant tracer does not grow where it is largest, nor shrink where it is
    smallest: with continuity, open boundaries as for momentum, and external values not
    beyond [k] either. *)
Theorem C59_local_extremum : forall sg ob k c phi uv w,
  positive3 M -> 0 <= lf_factor ->
  full_uv K = Some uv -> k_w K = Some w -> k_wmesh K = None -> k_hdg K = true -> k_vdg K = true ->
  horizontal uv -> surface_velocity M (k_symm K) uv -> continuity M ob uv w phi ->
  same_open M ob (k_bnd K) ->
  (forall e tb v, In e (g_lat M) -> k_bnd K (g_marker M e) = Some tb -> x_value tb = Some v -> sg * (v e - k) <= 0) ->
  extremal sg k c phi ->
  sg * (hor_adv M K phi c + ver_adv M K phi c) <= 0.
Proof.
  intros sg ob k c phi uv w HP Hl Hu Hw Hm Hh Hv Hz Hs Hc Ho Hx Hex.
  pose proof (hor_extremum sg k c phi uv HP Hl Hu Hh Hz Hex) as A.
  pose proof (ver_extremum sg k c phi w HP Hl ltac:(unfold vertvelo; now rewrite Hw, Hm) Hv Hex) as B.
  pose proof (C59_constants_formula M K ob k phi uv w Hu Hw Hh Hv Hs Hc) as C. rewrite Hm in C.
  assert (D : sg * ds_lat M (lat_defect M K ob k phi uv) <= 0).
  { unfold ds_lat. destruct HP as (_ & _ & _ & _ & _ & Pe).
    apply Rle_trans with (sg * integral (g_lat M) (g_we M) (fun _ => 0)).
    - apply int_sg; [intros e He; pose proof (Pe e He); lra|]. intros e He. rewrite Rmult_0_r.
      unfold lat_defect, adv_lat. specialize (Ho e He). destruct (k_bnd K (g_marker M e)) as [tb|] eqn:Eb.
      + assert (ob (g_marker M e) = true) as -> by (apply Ho; discriminate). cbv zeta. cbn [const3 a_e].
        set (un := doth (g_ne M e) (scal3 0.5 (add3 (val_e uv e) (ext_uv M tb (val_e uv e) e)))).
        assert (Q : sg * (ext_value tb k e - k) <= 0).
        { unfold ext_value. destruct (x_value tb) as [v|] eqn:Ev; [exact (Hx e tb v He Eb Ev)|]. right. ring. }
        pose proof (ex_pos_e _ _ _ _ Hex e) as PE.
        replace (sg * (k * (doth (val_e uv e) (g_ne M e) * a_e phi e)
          - (k * doth (val_e uv e) (g_ne M e) * a_e phi e + (1 - upw K un) * (ext_value tb k e - k) * un * a_e phi e)))
          with (- ((1 - upw K un) * un * (sg * (ext_value tb k e - k)) * a_e phi e)) by ring.
        assert (0 <= ((1 - upw K un) * un * (sg * (ext_value tb k e - k))) * a_e phi e); [|lra].
        apply Rmult_le_pos; [|exact PE]. destruct (Rtotal_order un 0) as [H|[->|H]].
        * rewrite (upw_neg K un H). nra.
        * right. ring.
        * rewrite (upw_pos K un H). right. ring.
      + destruct (ob (g_marker M e)); [exfalso; apply (proj1 Ho); reflexivity|]. right. ring.
    - rewrite integral_zero by reflexivity. right. ring. }
  assert (C' : sg * (hor_adv M K phi (KS k) + ver_adv M K phi (KS k)) = sg * ds_lat M (lat_defect M K ob k phi uv)) by (rewrite C; ring).
  rewrite Rmult_plus_distr_l in *. lra.
Qed.

(* ------------------------------------------------------------------ *)
(** ** Diffusion *)

(** Both diffusion terms are symmetric in the interior (the boundary terms of the
    horizontal one on sloping facets are not). *)
Theorem C59_diffusion_symmetric : forall phi c, ver_diff M K phi c = ver_diff M K c phi
  /\ (g_surf M = [] -> g_bot M = [] -> hor_diff M K phi c = hor_diff M K c phi).
Proof.
  intros phi c. split.
  - unfold ver_diff. destruct (k_muv K) as [mu|]; [|reflexivity]. unfold dx3, dS_h. f_equal. f_equal.
    + apply integral_ext. intros. ring.
    + destruct (k_vdg K); [|reflexivity]. apply integral_ext. intros f _. cbv zeta. ring.
  - intros Hs Hb. unfold hor_diff. destruct (k_muh K) as [mu|]; [|reflexivity]. cbv zeta.
    unfold dx3, dS_h, dS_v, ds_bottom, ds_surf. rewrite Hs, Hb, !integral_nil.
    rewrite (integral_ext (g_cells M) (g_wv M) _ (fun p => dot3 (a_gv c p) (hflux (a_v mu p) (a_gv phi p))))
      by (intros; unfold dot3, hflux; cbn [c0 c1 c2]; ring).
    destruct (k_hdg K); [|ring].
    assert (A : forall l, integral l (g_wf M) (fun f =>
        k_sipgh K * (if Rgt_dec (k_sigh K f true) (k_sigh K f false) then k_sigh K f true else k_sigh K f false)
        * dot3 (jump3 M phi f) (hflux (avg (a_f mu f)) (jump3 M c f))
        - dot3 (scal3 0.5 (add3 (hflux (a_f mu f true) (a_gf phi f true)) (hflux (a_f mu f false) (a_gf phi f false)))) (jump3 M c f)
        - dot3 (jump3 M phi f) (scal3 0.5 (add3 (hflux (a_f mu f true) (a_gf c f true)) (hflux (a_f mu f false) (a_gf c f false)))))
      = integral l (g_wf M) (fun f =>
        k_sipgh K * (if Rgt_dec (k_sigh K f true) (k_sigh K f false) then k_sigh K f true else k_sigh K f false)
        * dot3 (jump3 M c f) (hflux (avg (a_f mu f)) (jump3 M phi f))
        - dot3 (scal3 0.5 (add3 (hflux (a_f mu f true) (a_gf c f true)) (hflux (a_f mu f false) (a_gf c f false)))) (jump3 M phi f)
        - dot3 (jump3 M c f) (scal3 0.5 (add3 (hflux (a_f mu f true) (a_gf phi f true)) (hflux (a_f mu f false) (a_gf phi f false)))))).
    { intro l. apply integral_ext. intros f _. unfold dot3, hflux, scal3, add3. cbn [c0 c1 c2]. ring. }
    rewrite !A. reflexivity.
Qed.

(** Vertical diffusion never increases the variance of a continuous, or of a vertically
    piecewise constant tracer. *)
Theorem C59_vertical_diffusion_dissipates : forall c mu,
  positive3 M -> k_muv K = Some mu -> (forall p, 0 <= a_v mu p) -> (forall f s, 0 <= a_f mu f s) ->
  0 <= k_sipgv K -> (forall f s, 0 <= k_sigv K f s) ->
  (forall f, In f (g_hor M) -> jump (a_f c f) = 0 \/ forall s, c2 (a_gf c f s) = 0) ->
  ver_diff M K c c <= 0.
Proof.
  intros c mu (Pc & Ph & _) Hm M1 M2 S1 S2 Hj. unfold ver_diff. rewrite Hm.
  assert (A : 0 <= dx3 M (fun p => c2 (a_gv c p) * (a_v mu p * c2 (a_gv c p)))).
  { apply integral_nonneg; intros p Hp; [pose proof (Pc p Hp); lra|]. pose proof (M1 p).
    replace (c2 (a_gv c p) * (a_v mu p * c2 (a_gv c p))) with (a_v mu p * (c2 (a_gv c p) * c2 (a_gv c p))) by ring.
    apply Rmult_le_pos; [assumption|nra]. }
  destruct (k_vdg K); [|lra].
  match goal with |- - (_ + dS_h M ?g) <= 0 => assert (B : 0 <= dS_h M g) end; [|lra].
  apply integral_nonneg; intros f Hf; [pose proof (Ph f Hf); lra|]. cbv zeta.
  assert (SM : 0 <= if Rgt_dec (k_sipgv K * k_sigv K f true) (k_sipgv K * k_sigv K f false)
               then k_sipgv K * k_sigv K f true else k_sipgv K * k_sigv K f false).
  { destruct (Rgt_dec _ _); apply Rmult_le_pos; auto. }
  set (sm := if Rgt_dec _ _ then _ else _) in *.
  assert (AV : 0 <= avg (a_f mu f)) by (unfold avg; pose proof (M2 f true); pose proof (M2 f false); half; lra).
  destruct (Hj f Hf) as [Z|Z].
  - rewrite !jump3_eq, Z. unfold scal3. cbn [c2]. right. ring.
  - assert (avg (fun s => a_f mu f s * c2 (a_gf c f s)) = 0) as -> by (unfold avg; rewrite !Z; ring).
    assert (0 <= sm * avg (a_f mu f) * (c2 (jump3 M c f) * c2 (jump3 M c f))).
    { apply Rmult_le_pos; [apply Rmult_le_pos; assumption|nra]. }
    lra.
Qed.

(** ... and of any tracer for which the interior penalty dominates the averaged fluxes
    (the inverse inequality the penalty parameter is chosen for). *)
Definition penalty (f : F) : R :=
  let sp := k_sipgv K * k_sigv K f true in
  let sm := k_sipgv K * k_sigv K f false in if Rgt_dec sp sm then sp else sm.
Theorem C59_vertical_diffusion_penalty : forall c mu,
  positive3 M -> k_muv K = Some mu ->
  (forall f, In f (g_hor M) -> 0 < penalty f * avg (a_f mu f)) ->
  (let q f := avg (fun s => a_f mu f s * c2 (a_gf c f s)) in
   k_vdg K = true -> dS_h M (fun f => q f * q f / (penalty f * avg (a_f mu f))) <= dx3 M (fun p => a_v mu p * (c2 (a_gv c p) * c2 (a_gv c p)))) ->
  (k_vdg K = false -> forall p, 0 <= a_v mu p) ->
  ver_diff M K c c <= 0.
Proof.
  intros c mu (Pc & Ph & _) Hm Hp Hb H0. cbv zeta in Hb. unfold ver_diff. rewrite Hm.
  assert (E1 : dx3 M (fun p => c2 (a_gv c p) * (a_v mu p * c2 (a_gv c p))) = dx3 M (fun p => a_v mu p * (c2 (a_gv c p) * c2 (a_gv c p))))
    by (apply integral_ext; intros; ring).
  rewrite E1. destruct (k_vdg K).
  - specialize (Hb eq_refl).
    match goal with |- - (_ + dS_h M ?g) <= 0 => assert (B : - dS_h M (fun f => avg (fun s => a_f mu f s * c2 (a_gf c f s)) * avg (fun s => a_f mu f s * c2 (a_gf c f s)) / (penalty f * avg (a_f mu f))) <= dS_h M g) end; [|lra].
    unfold dS_h. rewrite <- integral_opp. apply integral_le; intros f Hf; [pose proof (Ph f Hf); lra|].
    cbv zeta. specialize (Hp f Hf). fold (penalty f). set (a := penalty f * avg (a_f mu f)) in *.
    set (q := avg (fun s => a_f mu f s * c2 (a_gf c f s))). set (j := c2 (jump3 M c f)).
    replace (penalty f * (j * (avg (a_f mu f) * j))) with (a * (j * j)) by (unfold a; ring).
    assert (S : a * (j * j) - q * j - j * q + q * q / a = a * ((j - q / a) * (j - q / a))) by (field; apply Rgt_not_eq; lra).
    assert (0 <= a * ((j - q / a) * (j - q / a))) by (apply Rmult_le_pos; [lra|apply Rle_0_sqr]).
    lra.
  - specialize (H0 eq_refl). assert (0 <= dx3 M (fun p => a_v mu p * (c2 (a_gv c p) * c2 (a_gv c p)))); [|lra].
    apply integral_nonneg; intros p Hq; [pose proof (Pc p Hq); lra|]. apply Rmult_le_pos; [apply H0|nra].
Qed.
End Bounds3d.

(* ------------------------------------------------------------------ *)
(** ** Boundary dictionaries *)

(** A prescribed discharge ('flux') is never accepted unless a velocity vector is given
    too: building the equation raises TypeError. *)
Theorem C59_flux_condition_unusable : forall {E} (d : bdict3 (E:=E)) g,
  bget3 "flux" d = Some g -> bget3 "uv" d = None ->
  (forall h, bget3 "value" d <> Some (BV3 h)) -> get_bnd3 d = inr BTypeError.
Proof.
  intros E d g Hf Hu Hv. unfold get_bnd3. rewrite Hu, Hf. destruct (bget3 "value" d) as [[v|v]|]; try reflexivity.
  now destruct (Hv v).
Qed.

(** The normal velocity condition: the external velocity is 'un' times the outward normal;
    a dictionary without velocity takes the interior velocity, and without value the
    interior tracer. *)
Theorem C59_boundary_values : forall {V F E} (M : mesh3 V F E) (d : bdict3 (E:=E)) tb c_in uv_in e,
  get_bnd3 d = inl tb ->
  ext_value tb c_in e = match bget3 "value" d with Some (BS3 g) => g e | _ => c_in end
  /\ (bget3 "uv" d = None -> forall g, bget3 "un" d = Some (BS3 g) -> ext_uv M tb uv_in e = scal3 (g e) (g_ne M e))
  /\ (forall g, bget3 "uv" d = Some (BV3 g) -> ext_uv M tb uv_in e = g e)
  /\ (bget3 "uv" d = None -> bget3 "un" d = None -> ext_uv M tb uv_in e = uv_in).
Proof.
  intros V F E M d tb c_in uv_in e H. unfold get_bnd3 in H.
  destruct (bget3 "value" d) as [[v|v]|]; destruct (bget3 "uv" d) as [[u|u]|]; destruct (bget3 "flux" d) as [q|];
    destruct (bget3 "un" d) as [[n|n]|]; try discriminate H;
    injection H as <-;
    (split; [reflexivity|]); (split; [intros; try discriminate|]); try (split; [intros; try discriminate|intros; try discriminate]);
    try reflexivity; unfold ext_uv; cbn [x_uv]; congruence.
Qed.

(* ------------------------------------------------------------------ *)
(** * Example: two cells in a channel, inflow on the left, outflow on the right *)
Section Channel.
(** cells and sides: [false] left, [true] right; boundary points 0 left, 1 right end *)
Let M2 : mesh3 bool unit nat :=
  mk_mesh3 [false; true] (fun _ => 10) [] [tt] (fun _ => 3) (fun _ => V3 (-1) 0 0)
    [] [] [0%nat; 1%nat] (fun _ => 3)
    (fun n => match n with 0%nat => V3 (-1) 0 0 | _ => V3 1 0 0 end) (fun n => n).
Let uv2 : vfield3 bool unit nat := mk_vf3 (const3 2) (const3 0) (const3 0).
Let pc (l r : R) : sfield3 bool unit nat :=
  mk_s3 (fun p : bool => if p then r else l) (fun _ => zero3) (fun _ s => if s then r else l) (fun _ _ => zero3)
        (fun e => match e with 0%nat => l | _ => r end) (fun _ => zero3).
Let K2 : tenv3 bool unit nat :=
  mk_tenv3 true true true (Some 1) (Some uv2) None (Some (const3 0)) None None None (fun _ _ => 1) (fun _ _ => 1) 1 1 None
    (fun n => match n with 0%nat => Some (mk_tb3 (Some (fun _ => 3/2)) XSym) | _ => Some (mk_tb3 None XSym) end) 0.
Ltac run := cbn -[Rplus Rmult Rminus Rdiv Ropp IZR Rabs]; unfold dot3, doth; cbn -[Rplus Rmult Rminus Rdiv Ropp IZR Rabs].
Lemma cont2 : forall l r, continuity M2 (fun _ => true) uv2 (const3 0) (pc l r).
Proof.
  intros l r. unfold continuity, w_lhs, w_rhs, ds_surf, ds_lat, dS_h, dS_v, dx3, integral, M2, avg. run. half. field.
Qed.
Lemma pos2 : positive3 M2.
Proof. repeat split; cbn; intros; lra. Qed.
Example C59_local_extremum_example :
  hor_adv M2 K2 (pc 1 0) (pc 2 1) + ver_adv M2 K2 (pc 1 0) (pc 2 1) <= 0.
Proof.
  match goal with |- ?x <= 0 => replace x with (1 * x) by ring end.
  apply (C59_local_extremum M2 K2 1 (fun _ => true) 2 (pc 2 1) (pc 1 0) uv2 (const3 0)); try reflexivity.
  - exact pos2.
  - cbn. lra.
  - repeat split.
  - intros e [].
  - apply cont2.
  - intros e [<-|[<-|[]]]; cbn; split; intros; congruence || discriminate.
  - intros e tb v [<-|[<-|[]]] H; cbn in H; injection H as <-; cbn; intro H; [injection H as <-; lra|discriminate].
  - constructor; cbn.
    + reflexivity.
    + intros [] []; lra.
    + intros [] []; lra.
    + intros [|]; lra.
    + intros [] []; intro H; [now destruct H|reflexivity].
    + intros [|]; intro H; [reflexivity|now destruct H].
Qed.
(** the hypotheses of the constants theorem: a uniform tracer of 3/2 *)
Example C59_constants_example : forall l r, tracer_residual3 M2 K2 (pc l r) (const3 (3/2)) = 0.
Proof.
  intros l r. apply (C59_constants_kept M2 K2 (fun _ => true) (3/2) (pc l r) uv2 (const3 0)); try reflexivity.
  - intros e [].
  - apply cont2.
  - intros e [<-|[<-|[]]]; cbn; split; intros; congruence || discriminate.
  - intros e tb v [<-|[<-|[]]] H; cbn in H; injection H as <-; cbn; intro H; [injection H as <-; reflexivity|discriminate].
Qed.
End Channel.

(** * Example: two layers exchanging water, closed basin of two columns and two layers
    would need more points; one column suffices for vertical transport: no flow through
    the surface, diffusion between the layers *)
Section Column.
Let M1 : mesh3 bool unit nat :=
  mk_mesh3 [false; true] (fun _ => 10) [tt] [] (fun _ => 5) (fun _ => V3 0 0 (-1))
    [0%nat] [1%nat] [] (fun _ => 5) (fun n => match n with 0%nat => V3 0 0 1 | _ => V3 0 0 (-1) end) (fun n => n).
Let pc (l r : R) : sfield3 bool unit nat :=
  mk_s3 (fun p : bool => if p then r else l) (fun _ => zero3) (fun _ s => if s then r else l) (fun _ _ => zero3)
        (fun e => match e with 0%nat => r | _ => l end) (fun _ => zero3).
Let K1 : tenv3 bool unit nat :=
  mk_tenv3 true true true (Some 1) (Some (mk_vf3 (const3 0) (const3 0) (const3 0))) None (Some (const3 0)) None (Some (const3 1)) (Some (const3 1))
    (fun _ _ => 1) (fun _ _ => 1) 1 1 None (fun _ => None) 0.
Example C59_diffusion_example : ver_diff M1 K1 (pc 1 3) (pc 1 3) <= 0 /\ ver_diff M1 K1 (pc 1 0) (pc 1 3) = 10.
Proof.
  split.
  - apply (C59_vertical_diffusion_dissipates M1 K1 (pc 1 3) (const3 1)); try reflexivity; cbn; try (intros; lra).
    + repeat split; cbn; intros; lra.
    + intros f _. right. reflexivity.
  - unfold ver_diff. cbn [k_muv K1]. unfold dx3, dS_h, integral, M1, avg.
    cbn -[Rplus Rmult Rminus Rdiv Ropp IZR Rgt_dec]. half. destruct (Rgt_dec _ _); field.
Qed.
(** a tracer with slope 1/2 in both layers and a jump *)
Let sl : sfield3 bool unit nat :=
  mk_s3 (fun p : bool => if p then 3 else 1) (fun _ => V3 0 0 (1/2)) (fun _ s => if s then 3 else 1) (fun _ _ => V3 0 0 (1/2)) (fun _ => 3) (fun _ => zero3).
Example C59_penalty_example : ver_diff M1 K1 sl sl <= 0.
Proof.
  apply (C59_vertical_diffusion_penalty M1 K1 sl (const3 1)); try reflexivity.
  - repeat split; cbn; intros; lra.
  - intros f _. unfold penalty, avg. cbn. destruct (Rgt_dec _ _); lra.
  - cbv zeta. intros _. unfold dx3, dS_h, integral, M1, avg, penalty. cbn -[Rplus Rmult Rminus Rdiv Ropp IZR Rgt_dec Rle].
    half. destruct (Rgt_dec _ _); lra.
  - discriminate.
Qed.
Example C59_conserved_example : forall l r, tracer_residual3 M1 K1 (const3 1) (pc l r) = 0.
Proof.
  intros l r. apply C59_conserved; try reflexivity.
  - intros e _. unfold surf_out. cbn. unfold doth. cbn. ring.
  - intros _ e He. cbn in He. destruct He as [[<-|[]]|[<-|[]]]; cbn; split; reflexivity.
Qed.
Example C59_variance_example : forall l r, hor_adv M1 K1 (pc l r) (pc l r) + ver_adv M1 K1 (pc l r) (pc l r) <= 0.
Proof.
  intros l r. apply (C59_variance_not_growing M1 K1 (fun _ => false) (mk_vf3 (const3 0) (const3 0) (const3 0)) (const3 0)); try reflexivity.
  - repeat split; cbn; intros; lra.
  - cbn. lra.
  - repeat split.
  - unfold continuity, w_lhs, w_rhs, ds_surf, ds_lat, dS_h, dS_v, dx3, integral, M1, avg.
    cbn -[Rplus Rmult Rminus Rdiv Ropp IZR Rabs]; unfold dot3, doth; cbn -[Rplus Rmult Rminus Rdiv Ropp IZR Rabs]. half. field.
  - intros e [].
  - intros e _. unfold surface_flux, doth. cbn. ring.
Qed.
End Column.

(** Horizontal diffusion does not conserve the total on a sloping bottom. *)
Section Slope.
Let MS : mesh3 unit unit unit :=
  mk_mesh3 [tt] (fun _ => 1) [] [] (fun _ => 0) (fun _ => zero3) [] [tt] [] (fun _ => 1)
    (fun _ => V3 (3/5) 0 (-4/5)) (fun _ => 0%nat).
Let lin : sfield3 unit unit unit := mk_s3 (fun _ => 0) (fun _ => V3 1 0 0) (fun _ _ => 0) (fun _ _ => zero3) (fun _ => 0) (fun _ => V3 1 0 0).
Let KSl : tenv3 unit unit unit :=
  mk_tenv3 true true true None None None None None (Some (const3 1)) None (fun _ _ => 1) (fun _ _ => 1) 1 1 None (fun _ => None) 0.
Theorem C59_slope_conservation_refuted : tracer_residual3 MS KSl (const3 1) lin = 3/5.
Proof.
  unfold tracer_residual3, hor_diff, hor_adv, ver_adv, ver_diff, tsource. cbn [full_uv k_uv k_dav vertvelo k_w k_muh k_muv k_source KSl k_hdg].
  unfold dx3, dS_h, dS_v, ds_bottom, ds_surf, integral, MS, dot3, hflux. cbn -[Rplus Rmult Rminus Rdiv Ropp IZR]. field.
Qed.
End Slope.

Print Assumptions C59_conserved.
Print Assumptions C59_constants_kept.
Print Assumptions C59_variance_not_growing.
Print Assumptions C59_local_extremum.
Print Assumptions C59_diffusion_symmetric.
Print Assumptions C59_boundary_values.
