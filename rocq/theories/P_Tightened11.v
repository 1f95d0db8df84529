(** Theorems added after mutation tests of the set-up of the turbulence closure. *)
From Coq Require Import Reals Lra List String.
From Verif Require Import Stability_Model Turb_Model GLSInit_Model P_GLSInit.
Import ListNotations.
Open Scope string_scope.
Open Scope R_scope.

(** Each name selects its own published set of coefficients, and a model that computes
    c_mu^0 computes it from the selected set. *)
Theorem C69_stability_selected : forall num o vk o' vk',
  construct num o vk = Built o' vk' -> f_cmu0 o = true ->
  (g_stability o = "Kantha-Clayson" -> g_cmu0 o' = compute_cmu0 (gotm_coeffs gotm_kantha_clayson)) /\
  (g_stability o = "Canuto A" ->
     g_cmu0 o' = compute_cmu0 (canuto_coeffs (mkLam 0.107 0.0032 0.0864 0.12 11.9 0.4 0 0.48))) /\
  (g_stability o = "Canuto B" ->
     g_cmu0 o' = compute_cmu0 (canuto_coeffs (mkLam 0.127 0.00336 0.0906 0.101 11.2 0.4 0 0.318))) /\
  (g_stability o = "Cheng" ->
     g_cmu0 o' = compute_cmu0 (cheng_coeffs (mkLam 0.107 0.0032 0.0864 0.1 11.04 0.786 0.643 0.547))).
Proof.
  intros num o vk o' vk' H F.
  destruct (construct_fields num o vk o' vk' H) as (c & Ec & _ & _ & P & _). rewrite F in P.
  destruct P as (_ & P & _). rewrite P.
  repeat split; intro E; rewrite E in Ec; cbn in Ec; injection Ec as <-; reflexivity.
Qed.
Theorem C69_stability_names : forall num o vk o' vk', construct num o vk = Built o' vk' ->
  In (g_stability o) ["Kantha-Clayson"; "Canuto A"; "Canuto B"; "Cheng"].
Proof.
  intros num o vk o' vk' H. unfold construct, stability in H.
  destruct (String.eqb_spec (g_stability o) "Kantha-Clayson") as [->|_]; [now left|].
  destruct (String.eqb_spec (g_stability o) "Canuto A") as [->|_]; [right; now left|].
  destruct (String.eqb_spec (g_stability o) "Canuto B") as [->|_]; [right; right; now left|].
  destruct (String.eqb_spec (g_stability o) "Cheng") as [->|_]; [right; right; right; now left|discriminate H].
Qed.
(** With untouched options the von Karman constant and the minima stay as given, and the
    Schmidt number of psi follows from the log layer. *)
Theorem C69_default_switches : forall num vk o' vk', construct num defaults vk = Built o' vk' ->
  g_kappa o' = 0.4 /\ vk' = vk /\ g_psimin o' = 1e-14 /\ g_lenmin o' = 1e-12 /\
  g_spsi o' = compute_sigma_psi 0.4 (g_cmu0 o') (-1) 1.44 1.92.
Proof.
  intros num vk o' vk' H.
  destruct (construct_fields num defaults vk o' vk' H) as (c & Ec & _ & _ & _ & P2 & _ & P4 & P5 & _).
  cbn in P2, P4, P5. destruct P2 as (K & V & S1 & _). repeat split; assumption.
Qed.

Print Assumptions C69_stability_selected.
Print Assumptions C69_stability_names.
Print Assumptions C69_default_switches.
