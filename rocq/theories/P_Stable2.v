(** C70, continued: where the coefficients promise too much. *)

From Coq Require Import Reals List String Arith Lia Lra FunctionalExtensionality.
From Verif Require Import RK_Model RK_Spec RK_Proofs RK_Proofs4 Cfl_Model Stable_Spec Stable_Proofs P_Stable.
Import ListNotations.
Open Scope R_scope.

Lemma max_abs_bound (u : nat -> R) m :
  Rabs (u 0%nat) <= m -> Rabs (u 1%nat) <= m -> Rabs (u 2%nat) <= m -> max_abs u <= m.
Proof. intros H0 H1 H2. unfold max_abs. apply Rmax_lub; [exact H0|]. apply Rmax_lub; assumption. Qed.

Lemma max_abs_ge u : Rabs (u 0%nat) <= max_abs u /\ Rabs (u 1%nat) <= max_abs u /\ Rabs (u 2%nat) <= max_abs u.
Proof.
  unfold max_abs. repeat split.
  - apply Rmax_l.
  - eapply Rle_trans; [apply Rmax_l|apply Rmax_r].
  - eapply Rle_trans; [apply Rmax_r|apply Rmax_r].
Qed.

Lemma max_abs_convex : convex_measure max_abs.
Proof.
  intros u v a Ha. destruct (max_abs_ge u) as (U0 & U1 & U2). destruct (max_abs_ge v) as (V0 & V1 & V2).
  assert (T : forall p q P Q, Rabs p <= P -> Rabs q <= Q -> Rabs ((1 - a) * p + a * q) <= (1 - a) * P + a * Q).
  { intros p q P Q Hp Hq. eapply Rle_trans; [apply Rabs_triang|]. rewrite !Rabs_mult.
    rewrite (Rabs_right (1 - a)), (Rabs_right a) by lra.
    apply Rplus_le_compat; apply Rmult_le_compat_l; lra. }
  apply max_abs_bound; apply T; assumption.
Qed.

(** a target is reached by one forward Euler step of size tau *)
Definition towards (tau : R) (G : (nat -> R) -> nat -> R) (v : nat -> R) (x : nat) : R := (G v x - v x) / tau.

Lemma towards_bounded tau G : 0 < tau -> (forall v, max_abs (G v) <= max_abs v) ->
  euler_bounded max_abs tau (towards tau G).
Proof.
  intros Ht HG v. replace (fun x => v x + tau * towards tau G v x) with (G v); [apply HG|].
  apply functional_extensionality; intros x. unfold towards. field. lra.
Qed.

(** a periodic upwind advection of three cells meets the hypotheses: one
    forward Euler step of size 1 moves the field by one cell *)
Definition shift (v : nat -> R) (x : nat) : R :=
  match x with 0%nat => v 2%nat | 1%nat => v 0%nat | 2%nat => v 1%nat | _ => v x end.

Example C70_upwind : linear_operator (towards 1 shift) /\ convex_measure max_abs /\
  euler_bounded max_abs 1 (towards 1 shift) /\
  explicit_step (ns SSPRK33Tab) (ta SSPRK33Tab) (tb SSPRK33Tab) (fun _ : unit => towards 1 shift) 1 (fun _ => tt)
    (fun x => match x with 0%nat => 1 | _ => 0 end)
    (fun x => match x with 0%nat => 1/2 | 1%nat => 1/2 | _ => 0 end).
Proof.
  split.
  { split; intros; unfold towards, shift; destruct x as [|[|[|x]]]; field. }
  split; [exact max_abs_convex|]. split.
  { apply towards_bounded; [lra|]. intros v. destruct (max_abs_ge v) as (V0 & V1 & V2).
    apply max_abs_bound; cbn; assumption. }
  exists (fun i x => match i with
     | 0%nat => match x with 0%nat => -1 | 1%nat => 1 | _ => 0 end
     | 1%nat => match x with 1%nat => -1 | 2%nat => 1 | _ => 0 end
     | _ => match x with 0%nat => -1/2 | 1%nat => 3/4 | 2%nat => -1/4 | _ => 0 end end).
  split.
  - intros i Hi. cbn in Hi. rewrite along_rsum. apply functional_extensionality; intros x.
    split_index i 3%nat Hi; destruct x as [|[|[|x]]]; unfold towards; cbn -[Rplus Rmult Rminus Rdiv Ropp IZR]; field.
  - rewrite along_rsum. apply functional_extensionality; intros x.
    destruct x as [|[|[|x]]]; cbn -[Rplus Rmult Rminus Rdiv Ropp IZR]; field.
Qed.

Ltac stage_numbers :=
  rewrite along_rsum; apply functional_extensionality; intros x;
  destruct x as [|[|[|x]]]; unfold towards; cbn -[Rplus Rmult Rminus Rdiv Ropp IZR Rinv]; try ring.

(** (Refuted) For a time dependent problem the explicit midpoint rule breaks
    its promise whatever the step. *)
Theorem C70_midpoint_nonlinear_refuted dt tau : 0 < tau -> 0 < dt ->
  exists (F : nat -> (nat -> R) -> nat -> R) (u u' : nat -> R),
    convex_measure max_abs /\
    (forall i, linear_operator (F i) /\ euler_bounded max_abs tau (F i)) /\
    explicit_step (ns ERKMidpointTab) (ta ERKMidpointTab) (tb ERKMidpointTab) F dt (fun i => i) u u' /\
    max_abs u < max_abs u'.
Proof.
  intros Ht Hdt. set (c := dt / tau).
  assert (Hc : 0 < c) by (apply Rmult_lt_0_compat; [exact Hdt|apply Rinv_0_lt_compat; exact Ht]).
  assert (Edt : dt = c * tau) by (unfold c; field; lra). clearbody c. subst dt.
  set (G := fun i (v : nat -> R) (x : nat) => match i with
     | 0%nat => match x with 1%nat => - v 1%nat | _ => v x end
     | _ => match x with 1%nat => v 0%nat | _ => v x end end).
  exists (fun i => towards tau (G i)),
    (fun x => match x with 0%nat => 1 | 1%nat => 1 | _ => 0 end),
    (fun x => match x with 0%nat => 1 | 1%nat => 1 + c * c | _ => 0 end).
  split; [exact max_abs_convex|]. split.
  { intros i. split.
    - split; intros; unfold towards, G; destruct i as [|i]; destruct x as [|[|x]]; field; lra.
    - apply towards_bounded; [exact Ht|]. intros v. destruct (max_abs_ge v) as (V0 & V1 & V2).
      destruct i; apply max_abs_bound; cbn; try assumption. rewrite Rabs_Ropp. assumption. }
  split.
  - exists (fun i x => match i, x with 0%nat, 1%nat => -2 / tau | 1%nat, 1%nat => c / tau | _, _ => 0 end).
    split.
    + intros i Hi. cbn in Hi. split_index i 2%nat Hi; stage_numbers; field; lra.
    + stage_numbers; field; lra.
  - unfold max_abs. cbv beta iota. rewrite Rabs_R1, Rabs_R0.
    rewrite (Rabs_right (1 + c * c)) by nra.
    rewrite (Rmax_left 1 0) by lra. rewrite (Rmax_left 1 1) by lra.
    rewrite (Rmax_left (1 + c * c) 0) by nra. rewrite Rmax_right by nra. nra.
Qed.

(** (Refuted) The limits quoted in the comments for nonlinear problems, and
    the larger declared ones, are too large for time dependent problems: the
    true limit of DIRKLSPUM2 is 42/11 (= 3.818...), *)
Theorem C70_dirklspum2_nonlinear_refuted dt tau : 0 < tau -> 42/11 * tau < dt ->
  exists (F : nat -> (nat -> R) -> nat -> R) (u u' : nat -> R),
    convex_measure max_abs /\
    (forall i, linear_operator (F i) /\ euler_bounded max_abs tau (F i)) /\
    implicit_step (ns DIRKLSPUM2Tab) (ta DIRKLSPUM2Tab) (tb DIRKLSPUM2Tab) F dt (fun i => i) u u' /\
    max_abs u < max_abs u'.
Proof.
  intros Ht Hdt. set (c := dt / tau).
  assert (Edt : dt = c * tau) by (unfold c; field; lra).
  assert (Hc : 42/11 < c).
  { apply Rmult_lt_reg_r with tau; [exact Ht|]. rewrite <- Edt. exact Hdt. }
  clearbody c. subst dt.
  set (G := fun i (v : nat -> R) (x : nat) => match x with
     | 1%nat => v 0%nat
     | 2%nat => if Nat.eqb i 1 then v 1%nat else v 2%nat
     | _ => v x end).
  set (g := 1 + c * (2/11)). assert (Hg : 0 < g) by (unfold g; lra).
  set (d0 := 2 / g). set (d1 := (2 - c * (205/462) * d0) / g).
  set (d2 := (2 - c * (2033/4620) * d0 - c * (21/110) * d1) / g).
  set (f1 := - d1 / g).
  assert (Hf : 0 < f1).
  { assert (E : f1 = 2 * (c * (11/42) - 1) / (g * g * g)).
    { unfold f1, d1, d0. replace (c * (11/42) - 1) with (c * (205/462) - g) by (unfold g; field). field. lra. }
    rewrite E. apply Rmult_lt_0_compat; [lra|]. apply Rinv_0_lt_compat. repeat apply Rmult_lt_0_compat; exact Hg. }
  set (U := 1 + c * (1/5) * f1).
  set (V := -1 + c * (24/55 * d0 + 1/5 * d1 + 4/11 * d2)).
  exists (fun i => towards tau (G i)),
    (fun x => match x with 0%nat => 1 | 1%nat => -1 | 2%nat => 1 | _ => 0 end),
    (fun x => match x with 0%nat => 1 | 1%nat => V | 2%nat => U | _ => 0 end).
  split; [exact max_abs_convex|]. split.
  { intros i. split.
    - split; intros; unfold towards, G; destruct x as [|[|[|x]]]; try destruct (Nat.eqb i 1); field; lra.
    - apply towards_bounded; [exact Ht|]. intros v. destruct (max_abs_ge v) as (V0 & V1 & V2).
      apply max_abs_bound; cbn; try assumption. destruct (Nat.eqb i 1); assumption. }
  split.
  - exists (fun i x => match x with
      | 1%nat => match i with 0%nat => d0 | 1%nat => d1 | _ => d2 end / tau
      | 2%nat => match i with 1%nat => f1 | _ => 0 end / tau | _ => 0 end).
    split.
    + intros i Hi. cbn in Hi. split_index i 3%nat Hi; stage_numbers;
        unfold f1, d2, d1, d0, g; field; repeat split; try lra; unfold g in Hg; lra.
    + stage_numbers; unfold U, V; field; lra.
  - assert (HU : 1 < U) by (unfold U; assert (0 < c * (1/5)) by lra; assert (0 < c * (1/5) * f1) by (apply Rmult_lt_0_compat; assumption); lra).
    destruct (max_abs_ge (fun x => match x with 0%nat => 1 | 1%nat => V | 2%nat => U | _ => 0 end)) as (_ & _ & H).
    cbv beta iota in H. rewrite (Rabs_right U) in H by lra.
    eapply Rle_lt_trans; [|eapply Rlt_le_trans; [exact HU|exact H]].
    apply max_abs_bound; cbv beta iota; try (rewrite Rabs_R1; lra).
    rewrite Rabs_left by lra. lra.
Qed.

(** and that of DIRKLPUM2 lies below 3.09 *)
Theorem C70_dirklpum2_nonlinear_refuted dt tau : 0 < tau -> 309/100 * tau <= dt <= 434/100 * tau ->
  exists (F : nat -> (nat -> R) -> nat -> R) (u u' : nat -> R),
    convex_measure max_abs /\
    (forall i, linear_operator (F i) /\ euler_bounded max_abs tau (F i)) /\
    implicit_step (ns DIRKLPUM2Tab) (ta DIRKLPUM2Tab) (tb DIRKLPUM2Tab) F dt (fun i => i) u u' /\
    max_abs u < max_abs u'.
Proof.
  intros Ht Hdt. set (c := dt / tau).
  assert (Edt : dt = c * tau) by (unfold c; field; lra).
  assert (Hc : 309/100 <= c <= 434/100).
  { split; apply Rmult_le_reg_r with tau; try exact Ht; rewrite <- Edt; apply Hdt. }
  clearbody c. subst dt.
  set (G := fun i (v : nat -> R) (x : nat) => match x with
     | 1%nat => v 0%nat
     | 2%nat => if Nat.eqb i 2 then v 1%nat else v 2%nat
     | _ => v x end).
  set (g := 1 + c * (2/11)). assert (Hg : 0 < g) by (unfold g; lra).
  set (d0 := 2 / g). set (d1 := (2 - c * (41/154) * d0) / g).
  set (d2 := (2 - c * (289/847) * d0 - c * (42/121) * d1) / g).
  set (f2 := - d2 / g).
  assert (Hf : 0 < f2).
  { assert (E : f2 = 2 * - (g * g - c * (289/847) * g - c * (42/121) * (g - c * (41/154))) / (g * g * g * g)).
    { unfold f2, d2, d1, d0. field. lra. }
    rewrite E. apply Rmult_lt_0_compat; [unfold g; nra|]. apply Rinv_0_lt_compat. repeat apply Rmult_lt_0_compat; exact Hg. }
  set (U := 1 + c * (1/3) * f2).
  set (V := -1 + c * (1/3 * d0 + 1/3 * d1 + 1/3 * d2)).
  exists (fun i => towards tau (G i)),
    (fun x => match x with 0%nat => 1 | 1%nat => -1 | 2%nat => 1 | _ => 0 end),
    (fun x => match x with 0%nat => 1 | 1%nat => V | 2%nat => U | _ => 0 end).
  split; [exact max_abs_convex|]. split.
  { intros i. split.
    - split; intros; unfold towards, G; destruct x as [|[|[|x]]]; try destruct (Nat.eqb i 2); field; lra.
    - apply towards_bounded; [exact Ht|]. intros v. destruct (max_abs_ge v) as (V0 & V1 & V2).
      apply max_abs_bound; cbn; try assumption. destruct (Nat.eqb i 2); assumption. }
  split.
  - exists (fun i x => match x with
      | 1%nat => match i with 0%nat => d0 | 1%nat => d1 | _ => d2 end / tau
      | 2%nat => match i with 0%nat => 0 | 1%nat => 0 | _ => f2 end / tau | _ => 0 end).
    split.
    + intros i Hi. cbn in Hi. split_index i 3%nat Hi; stage_numbers;
        unfold f2, d2, d1, d0, g; field; repeat split; try lra; unfold g in Hg; lra.
    + stage_numbers; unfold U, V; field; lra.
  - assert (HU : 1 < U) by (unfold U; assert (0 < c * (1/3)) by lra; assert (0 < c * (1/3) * f2) by (apply Rmult_lt_0_compat; assumption); lra).
    destruct (max_abs_ge (fun x => match x with 0%nat => 1 | 1%nat => V | 2%nat => U | _ => 0 end)) as (_ & _ & H).
    cbv beta iota in H. rewrite (Rabs_right U) in H by lra.
    eapply Rle_lt_trans; [|eapply Rlt_le_trans; [exact HU|exact H]].
    apply max_abs_bound; cbv beta iota; try (rewrite Rabs_R1; lra).
    rewrite Rabs_left by lra. lra.
Qed.

Print Assumptions C70_midpoint_nonlinear_refuted.
Print Assumptions C70_dirklspum2_nonlinear_refuted.
Print Assumptions C70_dirklpum2_nonlinear_refuted.
