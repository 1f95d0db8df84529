(** C90: the 3D tracer forms of a combined problem. *)
From Coq Require Import Reals List String Bool Arith Lia Lra FunctionalExtensionality.
From Verif Require Import Forms_Model Forms_Proofs RK_Model RK_Spec Super_Spec Super_Proofs
  Forms3d_Model Forms3d_Spec Galerkin3d_Model Galerkin3d_Proofs Super3d_Spec.
Import ListNotations.
Open Scope R_scope.

Section Forms3.
Context {V F E : Type}.
Local Notation sfield3 := (sfield3 V F E).
Local Notation tenv3 := (tenv3 V F E).
Variables a b : R.
Variable M : mesh3 V F E.
Variables K K1 K2 : tenv3.
Hypothesis HM : mixed_env3 a b K K1 K2.

Definition mix_s3 (c d : sfield3) : sfield3 := add_s (scale3 a c) (scale3 b d).

Lemma cup_same : forall K' : tenv3, k_sign0 K' = k_sign0 K -> c_up K' = c_up K.
Proof.
  intros K' H. apply functional_extensionality; intro c. apply functional_extensionality; intro f.
  apply functional_extensionality; intro u. unfold c_up, upw, sgn. rewrite H. reflexivity.
Qed.
Lemma upw_same : forall K' : tenv3, k_sign0 K' = k_sign0 K -> upw K' = upw K.
Proof. intros K' H. apply functional_extensionality; intro u. unfold upw, sgn. rewrite H. reflexivity. Qed.

Ltac pt := unfold mix_s3, c_up, jump3, nrm, jump, avg, dot3, doth, hflux, scal3, add3, opp3, zero3;
  cbn [const3 add_s scale3 a_v a_gv a_f a_gf a_e a_ge c0 c1 c2];
  unfold dot3, doth, hflux, scal3, add3, opp3, zero3; cbn [c0 c1 c2]; ring.
Ltac openup := destruct HM as ((E1 & E2 & E3 & E4 & E5 & E6 & E7 & E8 & E9 & E10 & E11 & E12 & E13 & E14 & E15)
   & (G1 & G2 & G3 & G4 & G5 & G6 & G7 & G8 & G9 & G10 & G11 & G12 & G13 & G14 & G15) & HB & HS).

Lemma hor_adv_mix : forall phi c d,
  hor_adv M K phi (mix_s3 c d) = a * hor_adv M K1 phi c + b * hor_adv M K2 phi d.
Proof.
  intros phi c d. openup. unfold hor_adv.
  assert (U1 : full_uv K1 = full_uv K) by (unfold full_uv; rewrite E5, E6; reflexivity).
  assert (U2 : full_uv K2 = full_uv K) by (unfold full_uv; rewrite G5, G6; reflexivity).
  rewrite U1, U2, E1, G1, E3, G3, E4, G4, (cup_same K1 E15), (cup_same K2 G15).
  destruct (full_uv K) as [uv|]; [|ring]. cbv zeta.
  match goal with |- - (- ?x + ?P + ?Q) = a * - (- ?x1 + ?P1 + ?Q1) + b * - (- ?x2 + ?P2 + ?Q2) =>
    assert (HA : x = a * x1 + b * x2) by (apply integral_mix; intros; pt); rewrite HA; clear HA;
    enough (HP : P = a * P1 + b * P2); [enough (HQ : Q = a * Q1 + b * Q2); [rewrite HP, HQ; ring|clear HP]|] end.
  - destruct (k_symm K); [|ring]. apply integral_mix; intros; pt.
  - destruct (k_hdg K); [|ring].
    match goal with |- ?x + ?y + ?P + ?Q = a * (?x1 + ?y1 + ?P1 + ?Q1) + b * (?x2 + ?y2 + ?P2 + ?Q2) =>
      assert (HA : x = a * x1 + b * x2) by (apply integral_mix; intros; pt); rewrite HA; clear HA;
      assert (HA : y = a * y1 + b * y2) by (apply integral_mix; intros; pt); rewrite HA; clear HA;
      enough (HP : P = a * P1 + b * P2); [enough (HQ : Q = a * Q1 + b * Q2); [rewrite HP, HQ; ring|clear HP]|] end.
    + apply integral_mix. intros e _. unfold adv_lat. rewrite (upw_same K1 E15), (upw_same K2 G15).
      specialize (HB (g_marker M e)).
      destruct (k_bnd K _) as [t|], (k_bnd K1 _) as [t1|], (k_bnd K2 _) as [t2|]; cbn [mixed_bnd3] in HB; try contradiction; [|ring].
      destruct HB as (B1 & B2 & B3). cbv zeta. unfold ext_uv, ext_value. rewrite B1, B2.
      destruct (x_value t), (x_value t1), (x_value t2); cbn [mixed] in B3; try contradiction; [rewrite B3|];
        unfold mix_s3; cbn [add_s scale3 a_e]; ring.
    + destruct (k_lax K) as [lf|]; [|ring].
      match goal with |- ?x + ?y = a * (?x1 + ?y1) + b * (?x2 + ?y2) =>
        assert (HA : x = a * x1 + b * x2) by (apply integral_mix; intros; pt); rewrite HA; clear HA;
        assert (HA : y = a * y1 + b * y2) by (apply integral_mix; intros; pt); rewrite HA; clear HA end. ring.
Qed.

Lemma ver_adv_mix : forall phi c d,
  ver_adv M K phi (mix_s3 c d) = a * ver_adv M K1 phi c + b * ver_adv M K2 phi d.
Proof.
  intros phi c d. openup. unfold ver_adv.
  assert (U1 : vertvelo K1 = vertvelo K) by (unfold vertvelo; rewrite E7, E8; reflexivity).
  assert (U2 : vertvelo K2 = vertvelo K) by (unfold vertvelo; rewrite G7, G8; reflexivity).
  rewrite U1, U2, E2, G2, E4, G4, (cup_same K1 E15), (cup_same K2 G15).
  destruct (vertvelo K) as [w|]; [|ring]. cbv zeta.
  match goal with |- - (- ?x + ?P + ?Q) = a * - (- ?x1 + ?P1 + ?Q1) + b * - (- ?x2 + ?P2 + ?Q2) =>
    assert (HA : x = a * x1 + b * x2) by (apply integral_mix; intros; pt); rewrite HA; clear HA;
    assert (HA : Q = a * Q1 + b * Q2) by (apply integral_mix; intros; pt); rewrite HA; clear HA;
    enough (HP : P = a * P1 + b * P2) by (rewrite HP; ring) end.
  destruct (k_vdg K); [|ring].
  match goal with |- ?x + ?P = a * (?x1 + ?P1) + b * (?x2 + ?P2) =>
    assert (HA : x = a * x1 + b * x2) by (apply integral_mix; intros; pt); rewrite HA; clear HA;
    enough (HP : P = a * P1 + b * P2) by (rewrite HP; ring) end.
  destruct (k_lax K) as [lf|]; [|ring]. apply integral_mix; intros; pt.
Qed.

Lemma hor_diff_mix : forall phi c d,
  hor_diff M K phi (mix_s3 c d) = a * hor_diff M K1 phi c + b * hor_diff M K2 phi d.
Proof.
  intros phi c d. openup. unfold hor_diff. rewrite E9, G9, E1, G1, E11, G11, E13, G13.
  destruct (k_muh K) as [mu|]; [|ring]. cbv zeta.
  match goal with |- - (?x + ?P + ?y + ?z) = a * - (?x1 + ?P1 + ?y1 + ?z1) + b * - (?x2 + ?P2 + ?y2 + ?z2) =>
    assert (HA : x = a * x1 + b * x2) by (apply integral_mix; intros; pt); rewrite HA; clear HA;
    assert (HA : y = a * y1 + b * y2) by (apply integral_mix; intros; pt); rewrite HA; clear HA;
    assert (HA : z = a * z1 + b * z2) by (apply integral_mix; intros; pt); rewrite HA; clear HA;
    enough (HP : P = a * P1 + b * P2) by (rewrite HP; ring) end.
  destruct (k_hdg K); [|ring].
  match goal with |- ?x + ?y = a * (?x1 + ?y1) + b * (?x2 + ?y2) =>
    assert (HA : x = a * x1 + b * x2) by (apply integral_mix; intros; pt); rewrite HA; clear HA;
    assert (HA : y = a * y1 + b * y2) by (apply integral_mix; intros; pt); rewrite HA; clear HA end. ring.
Qed.

Lemma ver_diff_mix : forall phi c d,
  ver_diff M K phi (mix_s3 c d) = a * ver_diff M K1 phi c + b * ver_diff M K2 phi d.
Proof.
  intros phi c d. openup. unfold ver_diff. rewrite E10, G10, E2, G2, E12, G12, E14, G14.
  destruct (k_muv K) as [mu|]; [|ring]. cbv zeta.
  match goal with |- - (?x + ?P) = a * - (?x1 + ?P1) + b * - (?x2 + ?P2) =>
    assert (HA : x = a * x1 + b * x2) by (apply integral_mix; intros; pt); rewrite HA; clear HA;
    enough (HP : P = a * P1 + b * P2) by (rewrite HP; ring) end.
  destruct (k_vdg K); [|ring]. apply integral_mix; intros; pt.
Qed.

Lemma tsource_mix : forall phi, tsource M K phi = a * tsource M K1 phi + b * tsource M K2 phi.
Proof.
  assert (G : forall (T : tenv3) phi, tsource M T phi = dx3 M (fun p => given (k_source T) p * a_v phi p)).
  { intros T phi. unfold tsource. destruct (k_source T); cbn [given]; [reflexivity|]. symmetry. apply integral_zero. intros; ring. }
  intros phi. rewrite !G. openup. apply integral_mix. intros p _. rewrite HS. ring.
Qed.

Lemma residual3_mix : forall phi c d,
  tracer_residual3 M K phi (mix_s3 c d) = a * tracer_residual3 M K1 phi c + b * tracer_residual3 M K2 phi d.
Proof.
  intros. unfold tracer_residual3. rewrite hor_adv_mix, ver_adv_mix, hor_diff_mix, ver_diff_mix, tsource_mix. ring.
Qed.
End Forms3.

Section Fields.
Context {V F E : Type}.
Variables a b : R.
Local Notation sfield3 := (sfield3 V F E).
Lemma s3_ext : forall q r : sfield3,
  (forall p, a_v q p = a_v r p) -> (forall p, a_gv q p = a_gv r p) -> (forall f s, a_f q f s = a_f r f s) ->
  (forall f s, a_gf q f s = a_gf r f s) -> (forall e, a_e q e = a_e r e) -> (forall e, a_ge q e = a_ge r e) -> q = r.
Proof.
  intros [q1 q2 q3 q4 q5 q6] [r1 r2 r3 r4 r5 r6]. cbn. intros H1 H2 H3 H4 H5 H6.
  f_equal; repeat (apply functional_extensionality; intro); auto.
Qed.
Lemma comb3_mix : forall n c d (phi : nat -> sfield3),
  comb3 n (mix a b c d) phi = mix_s3 a b (comb3 n c phi) (comb3 n d phi).
Proof.
  intros n c d phi. induction n as [|n IH]; cbn [comb3]; [|rewrite IH];
    apply s3_ext; intros; unfold mix_s3, mix, add3, scal3;
    cbn [const3 add_s scale3 a_v a_gv a_f a_gf a_e a_ge]; unfold add3, scal3, zero3; cbn [c0 c1 c2];
    try (f_equal; ring); ring.
Qed.
End Fields.
