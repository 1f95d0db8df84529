(** Linearity of the 3D tracer forms in the test function. *)
From Coq Require Import Reals List Bool Arith Lia Lra FunctionalExtensionality.
From Verif Require Import Forms_Model Forms_Proofs RK_Model RK_Spec RK_Proofs Galerkin_Proofs Forms3d_Model Forms3d_Spec Galerkin3d_Model.
Import ListNotations.
Open Scope R_scope.

Section Lin3.
Context {V F E : Type}.
Local Notation sfield3 := (sfield3 V F E).

Definition lin_test3 (f : sfield3 -> R) : Prop :=
  f (const3 0) = 0 /\ forall p k q, f (add_s p (scale3 k q)) = f p + k * f q.

Lemma lin3_comb : forall f, lin_test3 f -> forall n c phi,
  f (comb3 n c phi) = rsum n (fun i => c i * f (phi i)).
Proof.
  intros f (H0 & H1) n c phi. induction n as [|n IH].
  - exact H0.
  - change (comb3 (S n) c phi) with (add_s (comb3 n c phi) (scale3 (c n) (phi n))).
    rewrite H1, IH. unfold rsum; reflexivity.
Qed.

Lemma lin3_plus : forall f g, lin_test3 f -> lin_test3 g -> lin_test3 (fun p => f p + g p).
Proof.
  intros f g (F0 & F1) (G0 & G1). split; [rewrite F0, G0; ring|].
  intros p k q. rewrite F1, G1. ring.
Qed.
Lemma lin3_opp : forall f, lin_test3 f -> lin_test3 (fun p => - f p).
Proof.
  intros f (F0 & F1). split; [rewrite F0; ring|]. intros p k q. rewrite F1. ring.
Qed.
Lemma lin3_zero : lin_test3 (fun _ => 0).
Proof. split; [reflexivity|]. intros. ring. Qed.
Lemma lin3_integral {X : Type} : forall (l : list X) w (g : sfield3 -> X -> R),
  (forall x, lin_test3 (fun p => g p x)) -> lin_test3 (fun p => integral l w (g p)).
Proof.
  intros l w g H. split.
  - apply integral_zero. intros x _. apply (H x).
  - intros p k q. apply integral_lin. intros x _. apply (H x).
Qed.

Ltac pt3 := split; [|intros]; unfold jump3, nrm, jump, avg, dot3, doth, hflux, scal3, add3, opp3, zero3;
  cbn [const3 add_s scale3 a_v a_gv a_f a_gf a_e a_ge c0 c1 c2];
  unfold dot3, doth, hflux, scal3, add3, opp3, zero3; cbn [c0 c1 c2]; ring.

Variable M : mesh3 V F E.
Variable K : tenv3 V F E.

Lemma lin3_hor_adv : forall c, lin_test3 (fun phi => hor_adv M K phi c).
Proof.
  intro c. unfold hor_adv. destruct (full_uv K) as [uv|]; [|apply lin3_zero]. cbv zeta.
  apply lin3_opp. apply lin3_plus; [apply lin3_plus|].
  - apply lin3_opp. apply lin3_integral. intro p. pt3.
  - destruct (k_hdg K); [|apply lin3_zero].
    apply lin3_plus; [apply lin3_plus; [apply lin3_plus|]|].
    + apply lin3_integral. intro f. pt3.
    + apply lin3_integral. intro f. pt3.
    + destruct (k_lax K) as [lf|]; [|apply lin3_zero].
      apply lin3_plus; apply lin3_integral; intro f; pt3.
    + apply lin3_integral. intro e. unfold adv_lat. destruct (k_bnd K (g_marker M e)); cbv zeta; pt3.
  - destruct (k_symm K); [|apply lin3_zero]. apply lin3_integral. intro e. pt3.
Qed.

Lemma lin3_ver_adv : forall c, lin_test3 (fun phi => ver_adv M K phi c).
Proof.
  intro c. unfold ver_adv. destruct (vertvelo K) as [w|]; [|apply lin3_zero]. cbv zeta.
  apply lin3_opp. apply lin3_plus; [apply lin3_plus|].
  - apply lin3_opp. apply lin3_integral. intro p. pt3.
  - destruct (k_vdg K); [|apply lin3_zero]. apply lin3_plus.
    + apply lin3_integral. intro f. pt3.
    + destruct (k_lax K) as [lf|]; [|apply lin3_zero]. apply lin3_integral; intro f; pt3.
  - apply lin3_integral. intro e. pt3.
Qed.

Lemma lin3_hor_diff : forall c, lin_test3 (fun phi => hor_diff M K phi c).
Proof.
  intro c. unfold hor_diff. destruct (k_muh K) as [mu|]; [|apply lin3_zero]. cbv zeta.
  apply lin3_opp. apply lin3_plus; [apply lin3_plus; [apply lin3_plus|]|].
  - apply lin3_integral. intro p. pt3.
  - destruct (k_hdg K); [|apply lin3_zero].
    apply lin3_plus; apply lin3_integral; intro f; pt3.
  - apply lin3_integral. intro e. pt3.
  - apply lin3_integral. intro e. pt3.
Qed.

Lemma lin3_ver_diff : forall c, lin_test3 (fun phi => ver_diff M K phi c).
Proof.
  intro c. unfold ver_diff. destruct (k_muv K) as [mu|]; [|apply lin3_zero]. cbv zeta.
  apply lin3_opp. apply lin3_plus.
  - apply lin3_integral. intro p. pt3.
  - destruct (k_vdg K); [|apply lin3_zero]. apply lin3_integral; intro f; pt3.
Qed.

Lemma lin3_tsource : lin_test3 (fun phi => tsource M K phi).
Proof.
  unfold tsource. destruct (k_source K); [|apply lin3_zero]. apply lin3_integral. intro p. pt3.
Qed.

Lemma lin3_residual : forall c, lin_test3 (fun phi => tracer_residual3 M K phi c).
Proof.
  intro c. unfold tracer_residual3.
  apply lin3_plus; [apply lin3_plus; [apply lin3_plus; [apply lin3_plus|]|]|].
  - apply lin3_hor_adv. - apply lin3_ver_adv. - apply lin3_hor_diff. - apply lin3_ver_diff. - apply lin3_tsource.
Qed.

Lemma lin3_mass : forall (q : V -> R), lin_test3 (fun phi => dx3 M (fun p => q p * a_v phi p)).
Proof. intro q. apply lin3_integral. intro p. pt3. Qed.
End Lin3.
