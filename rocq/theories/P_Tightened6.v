(** Tightened theorems of C40: relaxation of the frequencies and the eddy coefficients. *)
From Coq Require Import Reals List Lra Psatz.
From Verif Require Import Stability_Model Turb_Model P_Turbulence.
Import ListNotations.
Open Scope R_scope.

(** The first solution takes the current gradient as it is; each later one moves the
    stored value by the fraction [relaxation] of the way to it. *)
Theorem C40_frequency_relaxation : forall relaxation minval gb n2 gu gv mu mv,
  buoy_solve relaxation minval true gb n2 = gb
  /\ buoy_solve relaxation minval false gb n2 - n2 = relaxation * (gb - n2)
  /\ (let '(mu', mv', _) := shear_solve relaxation minval true gu gv mu mv in mu' = gu /\ mv' = gv)
  /\ (let '(mu', mv', m2) := shear_solve relaxation minval false gu gv mu mv in
      mu' - mu = relaxation * (gu - mu) /\ mv' - mv = relaxation * (gv - mv)
      /\ m2 = Rmax minval (mu' ^ 2 + mv' ^ 2)).
Proof.
  intros. unfold buoy_solve, shear_solve. cbv zeta.
  split; [ring|]. split; [ring|]. split; [split; ring|].
  split; [ring|]. split; [ring|]. rewrite set_min_max. f_equal. ring.
Qed.

(** Over a history of gradients: with a steady gradient the distance to it decreases by
    the factor 1 - relaxation per solution; with gradients in an interval the stored
    value stays in it. *)
Theorem C40_frequency_history : forall relaxation minval g0 gs n2, let
  hist := fold_left (fun n g => buoy_solve relaxation minval false g n) gs (buoy_solve relaxation minval true g0 n2) in
  (forall g, Forall (fun x => x = g) gs -> hist - g = (1 - relaxation) ^ (length gs) * (g0 - g))
  /\ (forall lo hi, 0 <= relaxation <= 1 -> Forall (fun x => lo <= x <= hi) (g0 :: gs) -> lo <= hist <= hi).
Proof.
  intros relaxation minval g0 gs n2. cbv zeta.
  assert (E0 : buoy_solve relaxation minval true g0 n2 = g0) by (unfold buoy_solve; ring).
  rewrite E0. clear E0. split.
  - intros g. revert g0. induction gs as [|x r IH]; intros g0 F; cbn [fold_left length pow]; [ring|].
    inversion F; subst. rewrite IH by assumption. unfold buoy_solve. ring.
  - intros lo hi Hr F. inversion F; subst. clear F. revert g0 H1.
    induction gs as [|x r IH]; intros g0 H0; cbn [fold_left]; [exact H0|].
    inversion H2; subst. apply IH; [assumption|]. unfold buoy_solve. nra.
Qed.
(** the minimum value accepted by the solver of the buoyancy frequency is not imposed *)
Theorem C40_buoyancy_minimum_refuted : exists relaxation minval gb n2,
  0 < minval /\ buoy_solve relaxation minval true gb n2 < minval.
Proof. exists 1, 1e-12, (-1), 0. unfold buoy_solve. lra. Qed.

(** The eddy viscosity is k^2/eps times the momentum stability function and the eddy
    diffusivity k^2/eps times the one for tracers, at the updated k and eps, above their
    own minima, when the length scale limits do not act. *)
Theorem C40_eddy_coefficients : forall stab o s sm sh, let s' := postprocess stab o s in
  0 < o_k_min o -> 0 < o_eps_min o -> 0 < o_cmu0 o ->
  stab (t_m2 s) (t_n2 s) (t_k s') (t_eps s') = (sm, sh) ->
  (t_visc s' = Rmax (o_visc_min o) (sqrt (t_k s') * t_len s' * sm / o_cmu0 o ^ 3)
   /\ t_diff s' = Rmax (o_diff_min o) (sqrt (t_k s') * t_len s' * sh / o_cmu0 o ^ 3))
  /\ (t_len s' = o_cmu0 o ^ 3 * Rpower (t_k s') (3 / 2) / t_eps s' ->
      t_visc s' = Rmax (o_visc_min o) (sm * (t_k s' ^ 2 / t_eps s'))
      /\ t_diff s' = Rmax (o_diff_min o) (sh * (t_k s' ^ 2 / t_eps s'))).
Proof.
  intros stab o s sm sh s' Hk He Hc Hs.
  destruct (C40_lower_limits stab o s) as (K & _ & E & _). fold s' in K, E.
  assert (A : t_visc s' = Rmax (o_visc_min o) (sqrt (t_k s') * t_len s' * sm / o_cmu0 o ^ 3)
   /\ t_diff s' = Rmax (o_diff_min o) (sqrt (t_k s') * t_len s' * sh / o_cmu0 o ^ 3)).
  { rewrite <- !set_min_max. unfold s', postprocess in *. cbn [t_visc t_diff t_k t_len t_eps] in *.
    rewrite Hs. split; reflexivity. }
  split; [exact A|]. intro L. destruct A as [A1 A2]. rewrite A1, A2, L.
  set (k := t_k s') in *. set (e := t_eps s') in *. clearbody k e.
  assert (B : sqrt k * Rpower k (3 / 2) = k ^ 2).
  { rewrite <- Rpower_sqrt by lra. rewrite <- Rpower_plus. replace (/ 2 + 3 / 2) with (INR 2) by (simpl; lra).
    apply Rpower_pow. lra. }
  split; f_equal;
  match goal with |- sqrt k * (?c3 * ?r / e) * ?x / ?c3' = _ =>
    replace (sqrt k * (c3 * r / e) * x / c3') with (x * (sqrt k * r) / e) by (field; lra) end;
  rewrite B; field; lra.
Qed.
Example C40_eddy_example : let o := mkGLS 3 1.5 (-1) 1 1 1e-14 1 1e-12 1e-8 1e-8 0.3 false false false false in
  0 < o_k_min o /\ 0 < o_eps_min o /\ 0 < o_cmu0 o
  /\ fold_left (fun n g => buoy_solve 0.5 1e-12 false g n) [1; 1] (buoy_solve 0.5 1e-12 true 0 7) = 0.75.
Proof. cbn. unfold buoy_solve. lra. Qed.
Print Assumptions C40_eddy_coefficients.
Print Assumptions C40_frequency_history.
