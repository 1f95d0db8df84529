(** C90: the tracer forms of a combined problem. *)
From Coq Require Import Reals List String Bool Arith Lia Lra FunctionalExtensionality.
From Verif Require Import Forms_Model Forms_Spec Forms_Proofs P_Tracer2d
  RK_Model RK_Spec RK_Proofs Galerkin_Model Galerkin_Proofs P_Galerkin WaveEnergy_Proofs Super_Spec.
Import ListNotations.
Open Scope R_scope.

Section Forms.
Context {V F B : Type}.
Local Notation sfield := (sfield V F B).
Local Notation tcase := (@tcase V F B).

Lemma integral_mix {X : Type} : forall (l : list X) w a b (f g h : X -> R),
  (forall x, In x l -> f x = a * g x + b * h x) ->
  integral l w f = a * integral l w g + b * integral l w h.
Proof.
  intros l w a b f g h H. rewrite (integral_lin l w f (fun x => a * g x) b h).
  - rewrite (integral_lin l w (fun x => a * g x) (fun _ => 0) a g) by (intros; ring).
    replace (integral l w (fun _ => 0)) with 0; [ring|]. symmetry. apply integral_zero. reflexivity.
  - intros x Hx. rewrite H by exact Hx. ring.
Qed.

Variables a b : R.
Variables k k1 k2 : tcase.
Hypothesis HM : mixed_case a b k k1 k2.

Definition mix_s (c d : sfield) : sfield := add_s (scale_s a c) (scale_s b d).

Lemma up_same : forall k' : tcase, t_sign0 (tc_T k') = t_sign0 (tc_T k) -> up_s (tc_T k') = up_s (tc_T k).
Proof. intros k' H. apply functional_extensionality. intro x. unfold up_s, sign. rewrite H. reflexivity. Qed.
Lemma tuv_same : forall E (t t1 : @tbnd B), tb_uv t1 = tb_uv t -> tb_elev t1 = tb_elev t -> tuv_ext (V:=V) (F:=F) E t1 = tuv_ext E t.
Proof. intros E t t1 H1 H2. unfold tuv_ext. rewrite H1, H2. reflexivity. Qed.

Ltac ptwise := unfold mix_s, jump_n, normal, jump, avg, dot2, scal2, add2; cbn [const_s add_s scale_s s_v s_gv s_f s_gf s_b s_gb fst snd];
  unfold dot2, scal2, add2; cbn [fst snd]; ring.

Ltac openup := destruct HM as ((E1 & E2 & E3 & E4 & E5 & E6 & E7 & E8) & (G1 & G2 & G3 & G4 & G5 & G6 & G7 & G8) & HB & HS & HX);
  rewrite ?E1, ?E2, ?E3, ?G1, ?G2, ?G3.

Lemma advection_mix : forall phi c d,
  tracer_advection (tc_E k) (tc_T k) phi (mix_s c d) (tc_uv k) (tc_elev k)
  = a * tracer_advection (tc_E k1) (tc_T k1) phi c (tc_uv k1) (tc_elev k1)
    + b * tracer_advection (tc_E k2) (tc_T k2) phi d (tc_uv k2) (tc_elev k2).
Proof.
  intros phi c d. openup. unfold tracer_advection. rewrite E4, G4, E5, G5, (up_same k1 E8), (up_same k2 G8).
  match goal with |- - (- ?x + ?P + ?Q) = a * - (- ?x1 + ?P1 + ?Q1) + b * - (- ?x2 + ?P2 + ?Q2) =>
    assert (HA : x = a * x1 + b * x2) by (apply integral_mix; intros; ptwise); rewrite HA; clear HA;
    enough (HP : P = a * P1 + b * P2); [enough (HQ : Q = a * Q1 + b * Q2); [rewrite HP, HQ; ring|clear HP]|] end.
  - apply integral_mix. intros x Hx. specialize (HB (m_marker (e_mesh (tc_E k)) x)).
    destruct (t_bnd (tc_T k) _) as [t|], (t_bnd (tc_T k1) _) as [t1|], (t_bnd (tc_T k2) _) as [t2|]; cbn [mixed_bnd] in HB; try contradiction.
    + destruct HB as (B1 & B2 & B3 & B4 & B5 & _). cbv zeta. rewrite (tuv_same _ t t1 B1 B3), (tuv_same _ t t2 B2 B4).
      unfold c_ext. destruct (tb_value t), (tb_value t1), (tb_value t2); cbn [mixed] in B5; try contradiction; [rewrite B5|]; ptwise.
    + ptwise.
  - destruct (t_dg (tc_T k)); [|ring].
    match goal with |- ?x + ?P = a * (?x1 + ?P1) + b * (?x2 + ?P2) =>
      assert (HA : x = a * x1 + b * x2) by (apply integral_mix; intros; cbv zeta; ptwise); rewrite HA; clear HA;
      enough (HP : P = a * P1 + b * P2) by (rewrite HP; ring) end.
    destruct (t_lax (tc_T k)) as [[lf sp]|]; [|ring]. apply integral_mix. intros. ptwise.
Qed.

Lemma cons_advection_mix : forall phi c d,
  cons_advection (tc_E k) (tc_T k) phi (mix_s c d) (tc_uv k) (tc_elev k)
  = a * cons_advection (tc_E k1) (tc_T k1) phi c (tc_uv k1) (tc_elev k1)
    + b * cons_advection (tc_E k2) (tc_T k2) phi d (tc_uv k2) (tc_elev k2).
Proof.
  intros phi c d. openup. unfold cons_advection. rewrite E4, G4, E5, G5, (up_same k1 E8), (up_same k2 G8).
  match goal with |- - (- ?x + ?P + ?Q) = a * - (- ?x1 + ?P1 + ?Q1) + b * - (- ?x2 + ?P2 + ?Q2) =>
    assert (HA : x = a * x1 + b * x2) by (apply integral_mix; intros; ptwise); rewrite HA; clear HA;
    enough (HP : P = a * P1 + b * P2); [enough (HQ : Q = a * Q1 + b * Q2); [rewrite HP, HQ; ring|clear HP]|] end.
  - apply integral_mix. intros x Hx. specialize (HB (m_marker (e_mesh (tc_E k)) x)).
    destruct (t_bnd (tc_T k) _) as [t|], (t_bnd (tc_T k1) _) as [t1|], (t_bnd (tc_T k2) _) as [t2|]; cbn [mixed_bnd] in HB; try contradiction.
    + destruct HB as (B1 & B2 & B3 & B4 & B5 & _). cbv zeta. rewrite (tuv_same _ t t1 B1 B3), (tuv_same _ t t2 B2 B4).
      unfold c_ext. destruct (tb_value t), (tb_value t1), (tb_value t2); cbn [mixed] in B5; try contradiction; [rewrite B5|]; ptwise.
    + ptwise.
  - destruct (t_dg (tc_T k)); [|ring].
    match goal with |- ?x + ?P = a * (?x1 + ?P1) + b * (?x2 + ?P2) =>
      assert (HA : x = a * x1 + b * x2) by (apply integral_mix; intros; cbv zeta; ptwise); rewrite HA; clear HA;
      enough (HP : P = a * P1 + b * P2) by (rewrite HP; ring) end.
    destruct (t_lax (tc_T k)) as [[lf sp]|]; [|ring]. apply integral_mix. intros. ptwise.
Qed.

Lemma diffusion_mix : forall phi c d,
  tracer_diffusion (tc_E k) (tc_T k) phi (mix_s c d) (tc_uv k) (tc_elev k) (tc_gext k)
  = a * tracer_diffusion (tc_E k1) (tc_T k1) phi c (tc_uv k1) (tc_elev k1) (tc_gext k1)
    + b * tracer_diffusion (tc_E k2) (tc_T k2) phi d (tc_uv k2) (tc_elev k2) (tc_gext k2).
Proof.
  intros phi c d. openup. unfold tracer_diffusion. rewrite E6, G6, E4, G4, E7, G7, (up_same k1 E8), (up_same k2 G8).
  destruct (t_mu (tc_T k)) as [mu|]; [|ring].
  match goal with |- - (?x + ?P + ?Q) = a * - (?x1 + ?P1 + ?Q1) + b * - (?x2 + ?P2 + ?Q2) =>
    assert (HA : x = a * x1 + b * x2) by (apply integral_mix; intros; ptwise); rewrite HA; clear HA;
    enough (HP : P = a * P1 + b * P2); [enough (HQ : Q = a * Q1 + b * Q2); [rewrite HP, HQ; ring|clear HP]|] end.
  - apply integral_mix. intros x Hx. specialize (HB (m_marker (e_mesh (tc_E k)) x)).
    destruct (t_bnd (tc_T k) _) as [t|], (t_bnd (tc_T k1) _) as [t1|], (t_bnd (tc_T k2) _) as [t2|]; cbn [mixed_bnd] in HB; try contradiction.
    + destruct HB as (B1 & B2 & B3 & B4 & B5 & B6). cbv zeta. rewrite (tuv_same _ t t1 B1 B3), (tuv_same _ t t2 B2 B4).
      destruct (tb_diff_flux t), (tb_diff_flux t1), (tb_diff_flux t2); cbn [mixed] in B6; try contradiction; [rewrite B6; ring|].
      destruct (tb_value t), (tb_value t1), (tb_value t2); cbn [mixed] in B5; try contradiction; [rewrite (HX x)|]; ptwise.
    + ring.
  - destruct (t_dg (tc_T k)); [|ring]. apply integral_mix. intros f Hf. cbv zeta. ptwise.
Qed.

Lemma source_mix : forall phi,
  tracer_source (tc_E k) (tc_T k) phi = a * tracer_source (tc_E k1) (tc_T k1) phi + b * tracer_source (tc_E k2) (tc_T k2) phi.
Proof.
  assert (G : forall (E : swe_env V F B) T phi, tracer_source E T phi = dx (e_mesh E) (fun p => given (t_source T) p * s_v phi p)).
  { intros E T phi. unfold tracer_source. destruct (t_source T); cbn [given]; [ring|]. symmetry. apply integral_zero. intros; ring. }
  intros phi. rewrite !G. openup. apply integral_mix. intros p _. rewrite HS. ring.
Qed.
Lemma cons_source_mix : forall phi,
  cons_source (tc_E k) (tc_T k) phi (tc_elev k)
  = a * cons_source (tc_E k1) (tc_T k1) phi (tc_elev k1) + b * cons_source (tc_E k2) (tc_T k2) phi (tc_elev k2).
Proof.
  assert (G : forall (E : swe_env V F B) T phi el, cons_source E T phi el = dx (e_mesh E) (fun p => hv E el p * given (t_source T) p * s_v phi p)).
  { intros E T phi el. unfold cons_source. destruct (t_source T); cbn [given]; [ring|]. symmetry. apply integral_zero. intros; ring. }
  intros phi. rewrite !G. openup. apply integral_mix. intros p _. rewrite HS. ring.
Qed.

Variable W : @tspace V F B.
Lemma tracer_mix : forall c d, tracer_of W (mix a b c d) = mix_s (tracer_of W c) (tracer_of W d).
Proof.
  intros c d. unfold tracer_of, mix_s.
  replace (comb (n_c W) (mix a b c d) (chi W)) with (comb (n_c W) (fun i => (0 + a * c i) + b * d i) (chi W))
    by (f_equal; apply functional_extensionality; intro; unfold mix; ring).
  rewrite (comb_plus (n_c W) (fun i => 0 + a * c i) d b), (comb_plus (n_c W) (fun _ => 0) c a). f_equal.
  assert (Z : forall m, comb m (fun _ => 0) (chi W) = scale_s 0 (comb m c (chi W))).
  { intro m. replace (fun _ : nat => 0) with (fun i : nat => 0 * c i) by (apply functional_extensionality; intro; ring).
    induction m as [|m IH]; cbn [comb].
    - apply add_s_ext; intros; cbn [add_s scale_s const_s s_v s_gv s_f s_gf s_b s_gb]; unfold add2, scal2; cbn [fst snd]; try match goal with |- (_, _) = (_, _) => f_equal end; ring.
    - rewrite IH. apply add_s_ext; cbn [add_s scale_s s_v s_gv s_f s_gf s_b s_gb]; intros; unfold add2, scal2; cbn [fst snd]; try (f_equal; ring); ring. }
  rewrite Z. apply add_s_ext; cbn [add_s scale_s s_v s_gv s_f s_gf s_b s_gb]; intros; unfold add2, scal2; cbn [fst snd]; try (f_equal; ring); ring.
Qed.
End Forms.
