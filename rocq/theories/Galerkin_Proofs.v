(** Linearity of the forms in the test function, and sums of the rows. *)
From Coq Require Import Reals List Bool Arith Lia Lra FunctionalExtensionality.
From Verif Require Import Forms_Model Forms_Spec Forms_Proofs Galerkin_Model RK_Model RK_Spec RK_Proofs.
Import ListNotations.
Open Scope R_scope.

Lemma integral_lin {X : Type} : forall (l : list X) w g a k b,
  (forall x, In x l -> g x = a x + k * b x) ->
  integral l w g = integral l w a + k * integral l w b.
Proof.
  intros l w g a k b H. rewrite (integral_ext l w g (fun x => a x + k * b x) H).
  rewrite integral_plus, integral_scal. reflexivity.
Qed.

Section Lin.
Context {V F B : Type}.
Local Notation sfield := (sfield V F B).
Local Notation vfield := (vfield V F B).

Definition lin_test (f : sfield -> R) : Prop :=
  f (const_s 0) = 0 /\ forall p k q, f (add_s p (scale_s k q)) = f p + k * f q.

Lemma lin_comb : forall f, lin_test f -> forall n c phi,
  f (comb n c phi) = rsum n (fun i => c i * f (phi i)).
Proof.
  intros f (H0 & H1) n c phi. induction n as [|n IH].
  - exact H0.
  - change (comb (S n) c phi) with (add_s (comb n c phi) (scale_s (c n) (phi n))).
    rewrite H1, IH. unfold rsum; reflexivity.
Qed.

Lemma lin_plus : forall f g, lin_test f -> lin_test g -> lin_test (fun p => f p + g p).
Proof.
  intros f g (F0 & F1) (G0 & G1). split; [rewrite F0, G0; ring|].
  intros p k q. rewrite F1, G1. ring.
Qed.

Lemma lin_opp : forall f, lin_test f -> lin_test (fun p => - f p).
Proof.
  intros f (F0 & F1). split; [rewrite F0; ring|]. intros p k q. rewrite F1. ring.
Qed.

Lemma lin_zero_form : lin_test (fun _ => 0).
Proof. split; [reflexivity|]. intros. ring. Qed.

Lemma lin_integral {X : Type} : forall (l : list X) w (g : sfield -> X -> R),
  (forall x, lin_test (fun p => g p x)) ->
  lin_test (fun p => integral l w (g p)).
Proof.
  intros l w g H. split.
  - apply integral_zero. intros x _. apply (H x).
  - intros p k q. apply integral_lin. intros x _. apply (H x).
Qed.

Variable E : swe_env V F B.
Notation M := (e_mesh E).

Ltac ptwise := split; [|intros]; unfold jump_n, normal, jump, avg, dot2, scal2, add2; cbn [const_s add_s scale_s s_v s_gv s_f s_gf s_b s_gb fst snd];
  unfold dot2, scal2, add2; cbn [fst snd]; ring.

Lemma lin_continuity : forall uv eta uv_old eta_old dh,
  lin_test (fun phi => continuity_residual E phi uv eta uv_old eta_old dh).
Proof.
  intros uv eta uv_old eta_old dh. unfold continuity_residual. apply lin_plus.
  - unfold hu_div. destruct (e_u_jump E).
    + apply lin_opp. apply lin_plus; [apply lin_plus|].
      * apply lin_opp. apply lin_integral. intros p. ptwise.
      * destruct (e_eta_dg E); [|apply lin_zero_form].
        apply lin_integral. intros f. cbv zeta. ptwise.
      * apply lin_integral. intros b. destruct (e_bnd E (m_marker M b)); ptwise.
    + apply lin_opp. apply lin_plus.
      * apply lin_integral. intros p. ptwise.
      * apply lin_integral. intros b.
        destruct (e_bnd E (m_marker M b)) as [|e]; [|destruct (ex_un e)]; ptwise.
  - unfold continuity_source. destruct (e_vsource E); [|apply lin_zero_form].
    apply lin_integral. intros p. ptwise.
Qed.

Variable T : tracer_env V F B.

Lemma lin_cons_advection : forall c uv elev,
  lin_test (fun phi => cons_advection E T phi c uv elev).
Proof.
  intros c uv elev. unfold cons_advection. apply lin_opp. apply lin_plus; [apply lin_plus|].
  - apply lin_opp. apply lin_integral. intros p. ptwise.
  - destruct (t_dg T); [|apply lin_zero_form]. apply lin_plus.
    + apply lin_integral. intros f. cbv zeta. ptwise.
    + destruct (t_lax T) as [[lf sp]|]; [|apply lin_zero_form].
      apply lin_integral. intros f. ptwise.
  - apply lin_integral. intros b. destruct (t_bnd T (m_marker M b)); cbv zeta; ptwise.
Qed.

Lemma lin_diffusion : forall c uv elev gext,
  lin_test (fun phi => tracer_diffusion E T phi c uv elev gext).
Proof.
  intros c uv elev gext. unfold tracer_diffusion. destruct (t_mu T) as [mu|]; [|apply lin_zero_form].
  apply lin_opp. apply lin_plus; [apply lin_plus|].
  - apply lin_integral. intros p. ptwise.
  - destruct (t_dg T); [|apply lin_zero_form]. apply lin_integral. intros f. cbv zeta. ptwise.
  - apply lin_integral. intros b. destruct (t_bnd T (m_marker M b)) as [tb|]; [|ptwise].
    destruct (tb_diff_flux tb); [ptwise|]. destruct (tb_value tb); cbv zeta; ptwise.
Qed.

Lemma lin_cons_source : forall elev, lin_test (fun phi => cons_source E T phi elev).
Proof.
  intros elev. unfold cons_source. destruct (t_source T); [|apply lin_zero_form].
  apply lin_opp, lin_opp. apply lin_integral. intros p. ptwise.
Qed.

Lemma lin_mass : forall (N : mesh V F B) (q : V -> R), lin_test (fun phi => dx N (fun p => q p * s_v phi p)).
Proof. intros N q. apply lin_integral. intros p. ptwise. Qed.

End Lin.
