(** C64: the non-hydrostatic pressure correction. *)
From Coq Require Import Reals List Bool Lra Lia.
From Verif Require Import Forms_Model Forms_Spec Forms_Proofs Forms_Examples Nonhydro_Model P_Diag.
Import ListNotations.
Open Scope R_scope.
Open Scope list_scope.

Section P.
Context {V F B : Type}.
Variable E : nh_env (V := V) (F := F) (B := B).
Notation M := (nh_mesh E).
Notation sfield := (sfield V F B).
Notation vfield := (vfield V F B).
Notation H := (s_v (nh_h E)).

(** the water is nowhere dry; density and time step are positive *)
Definition wet : Prop := 0 < nh_rho E /\ 0 < nh_dt E /\ positive_weights M /\
  (forall p, In p (m_cells M) -> 0 < H p) /\ (forall b, In b (m_bnds M) -> 0 < s_b (nh_h E) b).

(** The depth-integrated continuity equation tested with [t]: the divergence of the mean velocity
    plus the difference of the mean vertical velocity and the bed velocity over half the depth,
    integrated by parts; [wb] is the bed velocity. *)
Definition continuity (u : vfield) (w wb : V -> R) (t : sfield) : R :=
  dx M (fun p => dot2 (vv u p) (s_gv t p)) - dx M (fun p => (w p - wb p) / (H p / 2) * s_v t p).

Lemma dx_plus : forall f g, dx M (fun p => f p + g p) = dx M f + dx M g.
Proof. intros. apply integral_plus. Qed.
Lemma dx_minus : forall f g, dx M (fun p => f p - g p) = dx M f - dx M g.
Proof. intros. apply integral_minus. Qed.
Lemma dx_scal : forall k f, dx M (fun p => k * f p) = k * dx M f.
Proof. intros. apply integral_scal. Qed.
Lemma dx_ext : forall f g, (forall p, In p (m_cells M) -> f p = g p) -> dx M f = dx M g.
Proof. intros f g K. apply integral_ext. exact K. Qed.

(** The terms of the form combine to the divergence form of the pressure operator. *)
Theorem C64_equation : forall u w q t, wet ->
  nh_cells E u w q t =
    - dx M (fun p => dot2 (s_gv q p) (s_gv t p) + s_v q p / H p * dot2 (gh E p) (s_gv t p))
    - dx M (fun p => 4 * s_v q p * s_v t p / (H p * H p))
    + nh_const E * continuity u w (w_bed E u) t.
Proof.
  intros u w q t (_ & _ & _ & HH & _). unfold nh_cells, continuity. cbv zeta.
  set (C1 := dx M (fun p => dot2 (s_gv t p) (vv u p))).
  replace (dx M (fun p => dot2 (vv u p) (s_gv t p))) with C1.
  2:{ unfold C1. apply dx_ext. intros. apply dot2_comm. }
  replace (dx M (fun p => (w p - w_bed E u p) / (H p / 2) * s_v t p))
    with (dx M (fun p => 2 * (w p - w_bed E u p) / H p * s_v t p)).
  2:{ apply dx_ext. intros p Hp. specialize (HH p Hp). field. lra. }
  set (C2 := dx M (fun p => 2 * (w p - w_bed E u p) / H p * s_v t p)).
  assert (S : dx M (fun p => dot2 (gh E p) (s_gv q p) / H p * s_v t p)
            - dx M (fun p => dot2 (grad_qth E q t p) (gh E p))
            - dx M (fun p => (dot2 (gh E p) (s_gv (nh_h E) p) + 4) / (H p * H p) * s_v q p * s_v t p)
            = - dx M (fun p => s_v q p / H p * dot2 (gh E p) (s_gv t p))
              - dx M (fun p => 4 * s_v q p * s_v t p / (H p * H p))).
  { rewrite <- !dx_minus.
    replace (- dx M (fun p => s_v q p / H p * dot2 (gh E p) (s_gv t p)))
      with (dx M (fun p => -1 * (s_v q p / H p * dot2 (gh E p) (s_gv t p)))) by (rewrite dx_scal; ring).
    rewrite <- dx_minus. apply dx_ext. intros p Hp. specialize (HH p Hp).
    unfold grad_qth, dot2. cbv zeta. cbn [fst snd]. field. lra. }
  rewrite dx_plus. lra.
Qed.

Lemma continuity_update : forall u w q t wb, wet ->
  dx M (fun p => dot2 (nh_rhs_u E u q p) (s_gv t p))
  - dx M (fun p => (w p + nh_dt E / nh_rho E * (s_v q p / H p) - wb p) / (H p / 2) * s_v t p)
  = continuity u w wb t
    + nh_dt E / (2 * nh_rho E) *
      (- dx M (fun p => dot2 (s_gv q p) (s_gv t p) + s_v q p / H p * dot2 (gh E p) (s_gv t p))
       - dx M (fun p => 4 * s_v q p * s_v t p / (H p * H p))).
Proof.
  intros u w q t wb (R0 & D0 & _ & HH & _). unfold continuity.
  rewrite Rmult_minus_distr_l.
  replace (nh_dt E / (2 * nh_rho E) * - dx M (fun p => dot2 (s_gv q p) (s_gv t p) + s_v q p / H p * dot2 (gh E p) (s_gv t p)))
    with (dx M (fun p => - (nh_dt E / (2 * nh_rho E)) * (dot2 (s_gv q p) (s_gv t p) + s_v q p / H p * dot2 (gh E p) (s_gv t p))))
    by (rewrite dx_scal; ring).
  rewrite <- dx_scal. rewrite <- !dx_minus, <- !dx_plus. apply dx_ext. intros p Hp. specialize (HH p Hp).
  unfold nh_rhs_u, dot2. cbv zeta. cbn [fst snd].
  replace 0.5 with (/ 2) by lra. field. lra.
Qed.

(** After the correction the mean velocities satisfy the depth-integrated continuity equation
    for every pressure test function, with the bed velocity of the state before the correction.
    At open boundaries the flux is that of the state before the correction, up to a term in the
    pressure there.  Needed of the spaces: gradients of pressure functions are velocity functions
    and pressure functions over half the depth are vertical velocity functions. *)
Theorem C64_continuity : forall (QS : sfield -> Prop) (US : (V -> R * R) -> Prop) (WS : (V -> R) -> Prop) u w q u' w' t, wet ->
  (forall t, QS t -> US (s_gv t)) -> (forall t, QS t -> WS (fun p => s_v t p / (H p / 2))) ->
  nh_solve E QS US WS true u w q u' w' -> QS t ->
  continuity u' w' (w_bed E u) t
  = ds_open E (fun b => dot2 (vb u b) (m_nb M b) * s_b t b)
    - nh_dt E / (2 * nh_rho E) *
      ds_open E (fun b => s_b q b * s_b t b / s_b (nh_h E) b * dot2 (gh_b E b) (m_nb M b)).
Proof.
  intros QS US WS u w q u' w' t W HU HW ((SQ & EQ) & (SU & EU) & (SW & EW)) Ht.
  pose proof W as (R0 & D0 & _ & HH & _).
  specialize (EQ t Ht). unfold nh_form in EQ. rewrite C64_equation in EQ by exact W.
  specialize (EU _ (HU t Ht)). specialize (EW _ (HW t Ht)). cbn beta in EU, EW.
  unfold continuity at 1. rewrite EU.
  replace (dx M (fun p => (w' p - w_bed E u p) / (H p / 2) * s_v t p))
    with (dx M (fun p => w' p * (s_v t p / (H p / 2))) - dx M (fun p => w_bed E u p * (s_v t p / (H p / 2)))).
  2:{ rewrite <- dx_minus. apply dx_ext. intros p Hp. specialize (HH p Hp). field. lra. }
  rewrite EW.
  pose proof (continuity_update u w q t (w_bed E u) W) as K.
  replace (dx M (fun p => (w p + nh_dt E / nh_rho E * (s_v q p / H p) - w_bed E u p) / (H p / 2) * s_v t p))
    with (dx M (fun p => (w p + nh_dt E / nh_rho E * (s_v q p / H p)) * (s_v t p / (H p / 2)))
          - dx M (fun p => w_bed E u p * (s_v t p / (H p / 2)))) in K.
  2:{ rewrite <- dx_minus. apply dx_ext. intros p Hp. specialize (HH p Hp). field. lra. }
  rewrite K. unfold nh_open in EQ. unfold nh_const in EQ.
  set (A1 := dx M (fun p => dot2 (s_gv q p) (s_gv t p) + s_v q p / H p * dot2 (gh E p) (s_gv t p))) in *.
  set (A2 := dx M (fun p => 4 * s_v q p * s_v t p / (H p * H p))) in *.
  set (A3 := continuity u w (w_bed E u) t) in *.
  set (O1 := ds_open E (fun b => s_b q b * s_b t b / s_b (nh_h E) b * dot2 (gh_b E b) (m_nb M b))) in *.
  set (O2 := ds_open E (fun b => dot2 (vb u b) (m_nb M b) * s_b t b)) in *.
  assert (X : A3 - O2 = nh_dt E / (2 * nh_rho E) * (A1 + A2 - O1)).
  { apply Rmult_eq_reg_l with (2 * nh_rho E / nh_dt E).
    - transitivity (A1 + A2 - O1); [|field; lra]. lra.
    - assert (0 < 2 * nh_rho E / nh_dt E); [|lra]. apply Rmult_lt_0_compat; [lra|apply Rinv_0_lt_compat; lra]. }
  lra.
Qed.

(** In a closed basin: exactly. *)
Theorem C64_continuity_closed : forall (QS : sfield -> Prop) (US : (V -> R * R) -> Prop) (WS : (V -> R) -> Prop) u w q u' w' t, wet -> (forall k, nh_bnd E k = false) ->
  (forall t, QS t -> US (s_gv t)) -> (forall t, QS t -> WS (fun p => s_v t p / (H p / 2))) ->
  nh_solve E QS US WS true u w q u' w' -> QS t ->
  continuity u' w' (w_bed E u) t = 0.
Proof.
  intros QS US WS u w q u' w' t W C HU HW S Ht.
  rewrite (C64_continuity QS US WS u w q u' w' t W HU HW S Ht).
  assert (Z : forall g, ds_open E g = 0). { intro g. apply ds_zero. intros b _. rewrite C. reflexivity. }
  rewrite !Z. ring.
Qed.

(* ------------------------------------------------------------------ *)
(** * Existence of at most one pressure *)

Lemma nh_cells_linear : forall u w q1 q2 t, wet ->
  nh_cells E u w q1 t - nh_cells E u w q2 t
  = - dx M (fun p => dot2 (s_gv (sub_s q1 q2) p) (s_gv t p) + s_v (sub_s q1 q2) p / H p * dot2 (gh E p) (s_gv t p))
    - dx M (fun p => 4 * s_v (sub_s q1 q2) p * s_v t p / (H p * H p)).
Proof.
  intros u w q1 q2 t W. pose proof W as (_ & _ & _ & HH & _). rewrite !C64_equation by exact W.
  replace (dx M (fun p => dot2 (s_gv (sub_s q1 q2) p) (s_gv t p) + s_v (sub_s q1 q2) p / H p * dot2 (gh E p) (s_gv t p)))
    with (dx M (fun p => dot2 (s_gv q1 p) (s_gv t p) + s_v q1 p / H p * dot2 (gh E p) (s_gv t p))
          - dx M (fun p => dot2 (s_gv q2 p) (s_gv t p) + s_v q2 p / H p * dot2 (gh E p) (s_gv t p))).
  2:{ rewrite <- dx_minus. apply dx_ext. intros p Hp. specialize (HH p Hp).
      unfold sub_s, sub2, dot2. cbn [s_v s_gv fst snd]. field. lra. }
  replace (dx M (fun p => 4 * s_v (sub_s q1 q2) p * s_v t p / (H p * H p)))
    with (dx M (fun p => 4 * s_v q1 p * s_v t p / (H p * H p)) - dx M (fun p => 4 * s_v q2 p * s_v t p / (H p * H p))).
  2:{ rewrite <- dx_minus. apply dx_ext. intros p Hp. specialize (HH p Hp). unfold sub_s. cbn [s_v]. field. lra. }
  ring.
Qed.

(** The slope of the mid-depth surface is below 4 (76 degrees): the operator is positive. *)
Lemma coercive_at : forall (g x : R * R) y, dot2 g g < 16 -> 0 <= dot2 x x + y * dot2 g x + 4 * (y * y) /\
  (dot2 x x + y * dot2 g x + 4 * (y * y) = 0 -> y = 0).
Proof.
  intros [g1 g2] [x1 x2] y. unfold dot2. cbn [fst snd]. intro G.
  assert (I : x1 * x1 + x2 * x2 + y * (g1 * x1 + g2 * x2) + 4 * (y * y)
            = (x1 + y * g1 / 2) * (x1 + y * g1 / 2) + (x2 + y * g2 / 2) * (x2 + y * g2 / 2)
              + (16 - (g1 * g1 + g2 * g2)) / 4 * (y * y)) by field.
  rewrite I. pose proof (Rle_0_sqr (x1 + y * g1 / 2)) as S1. pose proof (Rle_0_sqr (x2 + y * g2 / 2)) as S2.
  pose proof (Rle_0_sqr y) as S3. unfold Rsqr in *.
  assert (0 <= (16 - (g1 * g1 + g2 * g2)) / 4 * (y * y)) by (apply Rmult_le_pos; lra).
  split; [lra|]. intro Z.
  assert (Z2 : (16 - (g1 * g1 + g2 * g2)) / 4 * (y * y) = 0) by lra.
  apply Rmult_integral in Z2. destruct Z2 as [Q|Q]; [lra|]. apply Rmult_integral in Q. tauto.
Qed.

Theorem C64_unique_pressure : forall (QS : sfield -> Prop) u w q1 q2, wet ->
  (forall p, In p (m_cells M) -> dot2 (gh E p) (gh E p) < 16) ->
  (forall b, In b (m_bnds M) -> nh_bnd E (m_marker M b) = true -> dot2 (gh_b E b) (m_nb M b) <= 0) ->
  (forall a b, QS a -> QS b -> QS (sub_s a b)) ->
  nh_pressure E QS u w q1 -> nh_pressure E QS u w q2 ->
  forall p, In p (m_cells M) -> s_v q1 p = s_v q2 p.
Proof.
  intros QS u w q1 q2 W G GB CS [S1 E1] [S2 E2] p Hp.
  pose proof W as (_ & _ & (PW & _ & PB) & HH & HB).
  set (d := sub_s q1 q2). assert (SD : QS d) by (apply CS; assumption).
  pose proof (E1 d SD) as A1. pose proof (E2 d SD) as A2. unfold nh_form in A1, A2.
  assert (L := nh_cells_linear u w q1 q2 d W). fold d in L.
  assert (O : nh_open E u q1 d - nh_open E u q2 d
            = ds_open E (fun b => s_b d b * s_b d b / s_b (nh_h E) b * dot2 (gh_b E b) (m_nb M b))).
  { unfold nh_open, ds_open, ds.
    replace (integral (m_bnds M) (m_wb M) (fun b => if nh_bnd E (m_marker M b) then s_b d b * s_b d b / s_b (nh_h E) b * dot2 (gh_b E b) (m_nb M b) else 0))
      with (integral (m_bnds M) (m_wb M) (fun b => if nh_bnd E (m_marker M b) then s_b q1 b * s_b d b / s_b (nh_h E) b * dot2 (gh_b E b) (m_nb M b) else 0)
            - integral (m_bnds M) (m_wb M) (fun b => if nh_bnd E (m_marker M b) then s_b q2 b * s_b d b / s_b (nh_h E) b * dot2 (gh_b E b) (m_nb M b) else 0)).
    2:{ rewrite <- integral_minus. apply integral_ext. intros b Hb. specialize (HB b Hb). destruct (nh_bnd E (m_marker M b)); [|ring].
        unfold d at 3. unfold sub_s. cbn [s_b]. field. lra. }
    ring. }
  assert (ON : ds_open E (fun b => s_b d b * s_b d b / s_b (nh_h E) b * dot2 (gh_b E b) (m_nb M b)) <= 0).
  { assert (N0 : 0 <= integral (m_bnds M) (m_wb M) (fun b => - (if nh_bnd E (m_marker M b) then s_b d b * s_b d b / s_b (nh_h E) b * dot2 (gh_b E b) (m_nb M b) else 0))).
    { apply integral_nonneg; [intros x Hx; apply Rlt_le, PB, Hx|]. intros b Hb.
      destruct (nh_bnd E (m_marker M b)) eqn:EB; [|lra].
      specialize (GB b Hb EB). specialize (HB b Hb).
      assert (0 <= s_b d b * s_b d b / s_b (nh_h E) b).
      { apply Rmult_le_pos; [apply Rle_0_sqr|apply Rlt_le, Rinv_0_lt_compat; exact HB]. }
      assert (0 <= s_b d b * s_b d b / s_b (nh_h E) b * (- dot2 (gh_b E b) (m_nb M b))) by (apply Rmult_le_pos; lra). lra. }
    rewrite integral_opp in N0. unfold ds_open, ds. lra. }
  (* the positive form vanishes *)
  set (P := fun p => dot2 (s_gv d p) (s_gv d p) + s_v d p / H p * dot2 (gh E p) (s_gv d p) + 4 * (s_v d p / H p * (s_v d p / H p))).
  assert (PD : dx M P = dx M (fun p => dot2 (s_gv d p) (s_gv d p) + s_v d p / H p * dot2 (gh E p) (s_gv d p))
                      + dx M (fun p => 4 * s_v d p * s_v d p / (H p * H p))).
  { rewrite <- dx_plus. apply dx_ext. intros x Hx. specialize (HH x Hx). unfold P. field. lra. }
  assert (PN : forall x, In x (m_cells M) -> 0 <= P x).
  { intros x Hx. unfold P. apply coercive_at. apply G, Hx. }
  assert (PP : 0 <= dx M P). { apply integral_nonneg; [intros x Hx; apply Rlt_le, PW, Hx|exact PN]. }
  assert (PZ : dx M P = 0) by lra.
  pose proof (integral_zero_all _ _ _ PW PN PZ p Hp) as Q. unfold P in Q.
  apply coercive_at in Q; [|apply G, Hp]. specialize (HH p Hp).
  assert (Z : s_v d p = 0). { replace (s_v d p) with (s_v d p / H p * H p) by (field; lra). rewrite Q. ring. }
  unfold d, sub_s in Z. cbn [s_v] in Z. lra.
Qed.

(** A flow that satisfies the continuity equation already needs no pressure and is unchanged. *)
Theorem C64_consistent_flow : forall (QS : sfield -> Prop) (US : (V -> R * R) -> Prop) (WS : (V -> R) -> Prop) u w q u' w', wet ->
  (forall p, In p (m_cells M) -> dot2 (gh E p) (gh E p) < 16) -> (forall k, nh_bnd E k = false) ->
  (forall a b, QS a -> QS b -> QS (sub_s a b)) -> QS (const_s 0) ->
  (forall d, QS d -> (forall p, In p (m_cells M) -> s_v d p = 0) -> forall p, In p (m_cells M) -> s_gv d p = (0, 0)) ->
  US (vv u) -> (forall a b, US a -> US b -> US (fun p => sub2 (a p) (b p))) ->
  WS w -> (forall a b, WS a -> WS b -> WS (fun p => a p - b p)) ->
  (forall t, QS t -> continuity u w (w_bed E u) t = 0) ->
  nh_solve E QS US WS true u w q u' w' ->
  forall p, In p (m_cells M) -> s_v q p = 0 /\ vv u' p = vv u p /\ w' p = w p.
Proof.
  intros QS US WS u w q u' w' W G C CS S0 DT SU CU SW CW K ((SQ & EQ) & (SU' & EU) & (SW' & EW)).
  pose proof W as (R0 & D0 & (PW & _ & _) & HH & _).
  assert (OZ : forall g, ds_open E g = 0). { intro g. apply ds_zero. intros b _. rewrite C. reflexivity. }
  assert (Q0 : nh_pressure E QS u w (const_s 0)).
  { split; [exact S0|]. intros t Ht. unfold nh_form, nh_open. rewrite !OZ, C64_equation by exact W.
    rewrite (K t Ht).
    rewrite (dx_zero M (fun p => dot2 (s_gv (const_s 0) p) _ + _)).
    2:{ intros p Hp. specialize (HH p Hp). unfold const_s, dot2. cbn [s_gv s_v fst snd]. field. lra. }
    rewrite (dx_zero M (fun p => 4 * s_v (const_s 0) p * _ / _)).
    2:{ intros p Hp. specialize (HH p Hp). unfold const_s. cbn [s_v]. field. lra. }
    ring. }
  assert (QZ : forall p, In p (m_cells M) -> s_v q p = 0).
  { intros p Hp. apply (C64_unique_pressure QS u w q (const_s 0)); auto.
    - intros b _ HB. rewrite C in HB. discriminate.
    - split; assumption. }
  assert (QG : forall p, In p (m_cells M) -> s_gv q p = (0, 0)) by (apply DT; assumption).
  assert (UZ : dx M (fun p => dot2 (sub2 (vv u' p) (vv u p)) (sub2 (vv u' p) (vv u p))) = 0).
  { specialize (EU _ (CU _ _ SU' SU)). cbn beta in EU.
    transitivity (dx M (fun p => dot2 (vv u' p) (sub2 (vv u' p) (vv u p))) - dx M (fun p => dot2 (nh_rhs_u E u q p) (sub2 (vv u' p) (vv u p)))); [|lra].
    rewrite <- dx_minus. apply dx_ext. intros p Hp. unfold nh_rhs_u. rewrite (QZ p Hp), (QG p Hp).
    specialize (HH p Hp). unfold dot2, sub2. cbv zeta. cbn [fst snd]. ring. }
  assert (WZ : dx M (fun p => (w' p - w p) * (w' p - w p)) = 0).
  { specialize (EW _ (CW _ _ SW' SW)). cbn beta in EW.
    transitivity (dx M (fun p => w' p * (w' p - w p)) - dx M (fun p => (w p + nh_dt E / nh_rho E * (s_v q p / H p)) * (w' p - w p))); [|lra].
    rewrite <- dx_minus. apply dx_ext. intros p Hp. rewrite (QZ p Hp). unfold Rdiv at 2. ring. }
  intros p Hp. split; [apply QZ, Hp|].
  pose proof (integral_zero_all _ _ _ PW (fun x _ => dot2_self _) UZ p Hp) as UQ. cbn beta in UQ.
  pose proof (integral_zero_all _ _ _ PW (fun x _ => Rle_0_sqr (w' x - w x)) WZ p Hp) as WQ. cbn beta in WQ.
  split.
  - change ((fst (vv u' p) - fst (vv u p))² + (snd (vv u' p) - snd (vv u p))² = 0) in UQ.
    apply Rplus_sqr_eq_0 in UQ. destruct UQ.
    rewrite (surjective_pairing (vv u' p)), (surjective_pairing (vv u p)). f_equal; lra.
  - apply Rmult_integral in WQ. lra.
Qed.

(* ------------------------------------------------------------------ *)
(** * Energy *)

(** Over a flat bed with a level surface the correction is an orthogonal projection: it never
    adds kinetic energy, and the energy removed is that of the correction itself. *)
Definition kinetic (u : vfield) (w : V -> R) : R :=
  dx M (fun p => 0.5 * (dot2 (vv u p) (vv u p) + w p * w p)).
Theorem C64_energy : forall (QS : sfield -> Prop) (US : (V -> R * R) -> Prop) (WS : (V -> R) -> Prop) u w q u' w', wet -> (forall k, nh_bnd E k = false) ->
  (forall p, In p (m_cells M) -> gh E p = (0, 0) /\ s_gv (nh_bath E) p = (0, 0)) ->
  (forall t, QS t -> US (s_gv t)) -> (forall t, QS t -> WS (fun p => s_v t p / (H p / 2))) ->
  nh_solve E QS US WS true u w q u' w' ->
  kinetic u' w' + dx M (fun p => 0.5 * (dot2 (sub2 (vv u p) (vv u' p)) (sub2 (vv u p) (vv u' p)) + (w p - w' p) * (w p - w' p)))
  = kinetic u w /\ kinetic u' w' <= kinetic u w.
Proof.
  intros QS US WS u w q u' w' W C FL HU HW S.
  pose proof W as (R0 & D0 & (PW & _ & _) & HH & _).
  pose proof (C64_continuity_closed QS US WS u w q u' w' q W C HU HW S (proj1 (proj1 S))) as K.
  destruct S as ((SQ & EQ) & (SU & EU) & (SW & EW)).
  specialize (EU _ SU). specialize (EW _ SW).
  assert (X : dx M (fun p => dot2 (sub2 (vv u p) (vv u' p)) (vv u' p) + (w p - w' p) * w' p) = 0).
  { assert (X1 : dx M (fun p => dot2 (sub2 (vv u p) (vv u' p)) (vv u' p))
               = nh_dt E / (2 * nh_rho E) * dx M (fun p => dot2 (vv u' p) (s_gv q p))).
    { rewrite <- dx_scal.
      transitivity (dx M (fun p => dot2 (vv u p) (vv u' p)) - dx M (fun p => dot2 (vv u' p) (vv u' p))).
      { rewrite <- dx_minus. apply dx_ext. intros p _. unfold dot2, sub2. cbn [fst snd]. ring. }
      rewrite EU. rewrite <- dx_minus. apply dx_ext. intros p Hp. destruct (FL p Hp) as [F1 _].
      unfold nh_rhs_u. rewrite F1. specialize (HH p Hp). unfold dot2. cbv zeta. cbn [fst snd]. replace 0.5 with (/ 2) by lra. field. lra. }
    assert (X2 : dx M (fun p => (w p - w' p) * w' p)
               = - (nh_dt E / (2 * nh_rho E)) * dx M (fun p => (w' p - w_bed E u p) / (H p / 2) * s_v q p)).
    { rewrite <- dx_scal.
      transitivity (dx M (fun p => w p * w' p) - dx M (fun p => w' p * w' p)).
      { rewrite <- dx_minus. apply dx_ext. intros p _. ring. }
      rewrite EW. rewrite <- dx_minus. apply dx_ext. intros p Hp. destruct (FL p Hp) as [_ F2].
      unfold w_bed. rewrite F2, dot2_zero_r. specialize (HH p Hp). field. lra. }
    rewrite dx_plus, X1, X2. unfold continuity in K.
    rewrite Ropp_mult_distr_l_reverse. fold (Rminus (nh_dt E / (2 * nh_rho E) * dx M (fun p => dot2 (vv u' p) (s_gv q p)))
      (nh_dt E / (2 * nh_rho E) * dx M (fun p => (w' p - w_bed E u p) / (H p / 2) * s_v q p))).
    rewrite <- Rmult_minus_distr_l, K. ring. }
  assert (EQN : kinetic u' w' + dx M (fun p => 0.5 * (dot2 (sub2 (vv u p) (vv u' p)) (sub2 (vv u p) (vv u' p)) + (w p - w' p) * (w p - w' p)))
          = kinetic u w).
  { unfold kinetic. rewrite <- dx_plus.
    transitivity (dx M (fun p => 0.5 * (dot2 (vv u p) (vv u p) + w p * w p)) - dx M (fun p => dot2 (sub2 (vv u p) (vv u' p)) (vv u' p) + (w p - w' p) * w' p)).
    2:{ rewrite X. ring. }
    rewrite <- dx_minus. apply dx_ext. intros p _. unfold dot2, sub2. cbn [fst snd]. lra. }
  split; [exact EQN|]. rewrite <- EQN.
  assert (0 <= dx M (fun p => 0.5 * (dot2 (sub2 (vv u p) (vv u' p)) (sub2 (vv u p) (vv u' p)) + (w p - w' p) * (w p - w' p)))).
  { apply integral_nonneg; [intros x Hx; apply Rlt_le, PW, Hx|]. intros x _.
    pose proof (dot2_self (sub2 (vv u x) (vv u' x))). pose proof (Rle_0_sqr (w x - w' x)). unfold Rsqr in *. lra. }
  lra.
Qed.

(** Intermediate stages of a multi-stage integrator leave the vertical velocity alone. *)
Theorem C64_stage_keeps_w : forall (QS : sfield -> Prop) (US : (V -> R * R) -> Prop) (WS : (V -> R) -> Prop) u w q u' w',
  nh_solve E QS US WS false u w q u' w' -> w' = w.
Proof. intros QS US WS u w q u' w' (_ & _ & K). exact K. Qed.
End P.

(* ------------------------------------------------------------------ *)
(** * Examples and findings *)

(** On the two squares: functions a + b x, continuous across the facet. *)
Definition lin (a b : R) : sfield nat nat nat := affine (two (a - b / 2) (a + b / 2)) (fun _ => b) (fun _ => 0).
Definition lin_space (s : sfield nat nat nat) : Prop := exists a b, s = lin a b.
Definition vec_space (f : nat -> R * R) : Prop := exists a, forall c, In c [0; 1]%nat -> f c = (a, 0).
Definition lin_values (f : nat -> R) : Prop := exists a b, forall c, In c [0; 1]%nat -> f c = two (a - b / 2) (a + b / 2) c.

Definition flat_env (open : nat -> bool) : nh_env := mk_nh two_cells 1 1 (lin 2 0) (lin 0 0) (lin 2 0) open.
Definition uniform (x : R) : vfield nat nat nat := mk_vf (lin x 0) (lin 0 0).

Lemma flat_wet : forall open, wet (flat_env open).
Proof.
  intro o. unfold wet, flat_env. cbn [nh_rho nh_dt nh_mesh nh_h].
  split; [lra|]. split; [lra|]. split; [exact two_weights|].
  split; intros p Hp; cbn in Hp; unfold lin, affine, two; cbn [s_v s_b].
  - destruct Hp as [<-|[<-|[]]]; lra.
  - repeat (destruct Hp as [<-|Hp]; [cbn -[Rplus Rmult Rminus Rdiv Ropp IZR]; lra|]). destruct Hp.
Qed.

(** A uniform flow against the walls of a closed basin: pressure 8/5 x, the flow is slowed to 1/5
    and the water rises at the downstream end. *)
Example ex_correction :
  nh_solve (flat_env (fun _ => false)) lin_space vec_space lin_values true
    (uniform 1) (fun _ => 0) (lin 0 (8/5)) (uniform (1/5)) (two (-2/5) (2/5)).
Proof.
  split; [|split].
  - split; [exists 0, (8/5); reflexivity|]. intros t (a & b & ->).
    unfold nh_form, nh_cells, nh_open, ds_open, dx, ds, integral, nh_const, w_bed, gh, gh_b, grad_qth, dot2.
    cbn -[Rplus Rmult Rminus Rdiv Ropp IZR]. field.
  - split.
    { exists (1/5). intros c [<-|[<-|[]]]; unfold vv; cbn -[Rplus Rmult Rminus Rdiv Ropp IZR]; f_equal; field. }
    intros t (a & Ha). unfold dx, integral, nh_rhs_u, gh, dot2.
    cbn -[Rplus Rmult Rminus Rdiv Ropp IZR]. rewrite (Ha 0%nat), (Ha 1%nat) by (cbn; tauto). cbn [fst snd]. lra.
  - split.
    { exists 0, (4/5). intros c [<-|[<-|[]]]; cbn -[Rplus Rmult Rminus Rdiv Ropp IZR]; field. }
    intros t (a & b & Ha). unfold dx, integral, nh_rhs_u, gh, dot2.
    cbn -[Rplus Rmult Rminus Rdiv Ropp IZR]. rewrite (Ha 0%nat), (Ha 1%nat) by (cbn; tauto). cbn [two]. field.
Qed.
(** The hypotheses on the spaces hold for it. *)
Example ex_spaces : let E := flat_env (fun _ => false) in
  wet E /\ (forall t, lin_space t -> vec_space (s_gv t)) /\
  (forall t, lin_space t -> lin_values (fun p => s_v t p / (s_v (nh_h E) p / 2))) /\
  (forall a b, lin_space a -> lin_space b -> forall p, In p [0; 1]%nat ->
     exists c, lin_space c /\ s_v (sub_s a b) p = s_v c p) /\
  (forall p, In p (m_cells (nh_mesh E)) -> gh E p = (0, 0) /\ s_gv (nh_bath E) p = (0, 0)).
Proof.
  cbv zeta. split; [apply flat_wet|]. split; [|split; [|split]].
  - intros t (a & b & ->). exists b. intros c _. reflexivity.
  - intros t (a & b & ->). exists a, b. intros c [<-|[<-|[]]]; cbn -[Rplus Rmult Rminus Rdiv Ropp IZR]; field.
  - intros x y (a & b & ->) (a' & b' & ->) p [<-|[<-|[]]];
      (exists (lin (a - a') (b - b')); split; [exists (a - a'), (b - b'); reflexivity|]);
      unfold sub_s; cbn -[Rplus Rmult Rminus Rdiv Ropp IZR]; field.
  - intros p _. unfold gh, flat_env, lin, affine. cbn [nh_elev nh_bath s_gv fst snd]. split; [f_equal; lra|reflexivity].
Qed.

(** The value q = 0 that the code prepares for open boundaries is not imposed: the solved problem
    is built without the conditions. *)
Definition con_space (s : sfield nat nat nat) : Prop := exists a, s = lin a 0.
Theorem C64_open_boundary_pressure_refuted :
  let E := flat_env (fun k => Nat.eqb k 3) in
  wet E /\ exists q b, nh_pressure E con_space (uniform 0) (fun _ => 1) q /\
    In b (m_bnds (nh_mesh E)) /\ bcs E b = true /\ s_b q b <> 0.
Proof.
  cbv zeta. split; [apply flat_wet|]. exists (lin (-2) 0), 3%nat.
  split; [|split; [|split]].
  - split; [exists (-2); reflexivity|]. intros t (a & ->).
    unfold nh_form, nh_cells, nh_open, ds_open, dx, ds, integral, nh_const, w_bed, gh, gh_b, grad_qth, dot2.
    cbn -[Rplus Rmult Rminus Rdiv Ropp IZR]. field.
  - cbn. tauto.
  - reflexivity.
  - cbn -[Rplus Rmult Rminus Rdiv Ropp IZR]. lra.
Qed.

(** Over a sloping bed the corrected velocities do not satisfy the continuity equation with their
    own bed velocity: the correction of the flow along the slope is left out. *)
Definition slope_env : nh_env := mk_nh two_cells 1 1 (lin 3 1) (lin (-1) (-1)) (lin 2 0) (fun _ => false).
Definition con_values (f : nat -> R) : Prop := exists a, forall c, In c [0; 1]%nat -> f c = a.
Theorem C64_sloping_bed_refuted :
  wet slope_env /\ (forall c, In c [0; 1]%nat -> s_v (nh_h slope_env) c = s_v (nh_bath slope_env) c + s_v (nh_elev slope_env) c) /\
  exists q u' w', nh_solve slope_env con_space vec_space con_values true (uniform 0) (fun _ => 1) q u' w' /\
    continuity slope_env u' w' (w_bed slope_env u') (lin 1 0) <> 0.
Proof.
  split; [apply (flat_wet (fun _ => false))|]. split.
  { intros c [<-|[<-|[]]]; cbn -[Rplus Rmult Rminus Rdiv Ropp IZR]; field. }
  exists (lin (-2) 0), (uniform (-2/1 + 1)), (fun _ => 0). split; [split; [|split]|].
  - split; [exists (-2); reflexivity|]. intros t (a & ->).
    unfold nh_form, nh_cells, nh_open, ds_open, dx, ds, integral, nh_const, w_bed, gh, gh_b, grad_qth, dot2.
    cbn -[Rplus Rmult Rminus Rdiv Ropp IZR]. field.
  - split.
    { exists (-1). intros c [<-|[<-|[]]]; unfold vv; cbn -[Rplus Rmult Rminus Rdiv Ropp IZR]; f_equal; field. }
    intros t (a & Ha). unfold dx, integral, nh_rhs_u, gh, dot2.
    cbn -[Rplus Rmult Rminus Rdiv Ropp IZR]. rewrite (Ha 0%nat), (Ha 1%nat) by (cbn; tauto). cbn [fst snd]. lra.
  - split.
    { exists 0. intros c _. reflexivity. }
    intros t (a & Ha). unfold dx, integral.
    cbn -[Rplus Rmult Rminus Rdiv Ropp IZR]. rewrite (Ha 0%nat), (Ha 1%nat) by (cbn; tauto). field.
  - unfold continuity, dx, integral, w_bed, dot2. cbn -[Rplus Rmult Rminus Rdiv Ropp IZR]. lra.
Qed.
Print Assumptions C64_equation.
Print Assumptions C64_continuity.
Print Assumptions C64_continuity_closed.
Print Assumptions C64_unique_pressure.
Print Assumptions C64_consistent_flow.
Print Assumptions C64_energy.
Print Assumptions C64_stage_keeps_w.
Print Assumptions C64_open_boundary_pressure_refuted.
Print Assumptions C64_sloping_bed_refuted.
