(** C45: rotation of vectors between coordinate systems. *)
From Coq Require Import Reals List Lra Lia Psatz.
From Verif Require Import Coords_Model.
Import ListNotations.
Open Scope R_scope.

Definition norm2 (v : R * R) : R := sqrt (fst v ^ 2 + snd v ^ 2).

(** arctan2 is the polar angle *)
Lemma cos_atan_formula : forall t, cos (atan t) = 1 / sqrt (1 + t ^ 2).
Proof. intro t. rewrite cos_atan. unfold Rsqr. replace (t * t) with (t ^ 2) by ring. reflexivity. Qed.
Lemma sin_atan_formula : forall t, sin (atan t) = t / sqrt (1 + t ^ 2).
Proof. intro t. rewrite sin_atan. unfold Rsqr. replace (t * t) with (t ^ 2) by ring. reflexivity. Qed.
Lemma polar : forall y x, ~ (x = 0 /\ y = 0) ->
  let r := sqrt (x ^ 2 + y ^ 2) in 0 < r /\ cos (arctan2 y x) = x / r /\ sin (arctan2 y x) = y / r.
Proof.
  intros y x H r.
  assert (P : 0 < x ^ 2 + y ^ 2).
  { assert (A := pow2_ge_0 x). assert (B := pow2_ge_0 y).
    destruct (Req_dec x 0) as [->|Hx].
    - destruct (Req_dec y 0) as [->|Hy]; [exfalso; apply H; split; reflexivity|].
      assert (0 < y ^ 2) by (apply Rlt_le_trans with (Rsqr y); [apply Rlt_0_sqr; exact Hy|unfold Rsqr; lra]). lra.
    - assert (0 < x ^ 2) by (apply Rlt_le_trans with (Rsqr x); [apply Rlt_0_sqr; exact Hx|unfold Rsqr; lra]). lra. }
  assert (R0 : 0 < r) by (apply sqrt_lt_R0; exact P). split; [exact R0|].
  assert (Q : x <> 0 -> sqrt (1 + (y / x) ^ 2) = r / Rabs x).
  { intro Hx. assert (A : 0 < Rabs x) by (apply Rabs_pos_lt; exact Hx).
    apply sqrt_lem_1.
    - assert (0 <= (y / x) ^ 2) by apply pow2_ge_0. lra.
    - left. apply Rmult_lt_0_compat; [exact R0|apply Rinv_0_lt_compat; exact A].
    - replace (r / Rabs x * (r / Rabs x)) with (r * r / (Rabs x * Rabs x)) by (field; lra).
      unfold r. rewrite sqrt_sqrt by lra. replace (Rabs x * Rabs x) with (x ^ 2).
      + field. exact Hx.
      + rewrite <- Rabs_mult, Rabs_right; [ring|]. apply Rle_ge. assert (B := pow2_ge_0 x). simpl in B. lra. }
  unfold arctan2. destruct (Rlt_dec 0 x) as [X|X].
  - rewrite cos_atan_formula, sin_atan_formula, Q by lra. rewrite Rabs_right by lra. split; field; split; lra.
  - destruct (Rlt_dec x 0) as [X'|X'].
    + assert (C : cos (atan (y / x)) = - (x / r) /\ sin (atan (y / x)) = - (y / r)).
      { rewrite cos_atan_formula, sin_atan_formula, Q by lra. rewrite Rabs_left by lra. split; field; split; lra. }
      destruct C as (C1 & C2).
      destruct (Rle_dec 0 y).
      * rewrite neg_cos, neg_sin, C1, C2. split; ring.
      * replace (atan (y / x) - PI) with (- (PI - atan (y / x))) by ring. rewrite cos_neg, sin_neg.
        rewrite <- (sin_PI_x (atan (y / x))) in C2.
        replace (cos (PI - atan (y / x))) with (- cos (atan (y / x))).
        -- rewrite C1, C2. split; ring.
        -- replace (PI - atan (y / x)) with (- atan (y / x) + PI) by ring. rewrite neg_cos, cos_neg. reflexivity.
    + assert (x = 0) by lra. subst x. assert (E : r = Rabs y).
      { unfold r. replace (0 ^ 2 + y ^ 2) with (Rsqr y) by (unfold Rsqr; ring). apply sqrt_Rsqr_abs. }
      destruct (Rlt_dec 0 y) as [Y|Y].
      * rewrite cos_PI2, sin_PI2, E, Rabs_right by lra. split; field; lra.
      * destruct (Rlt_dec y 0) as [Y'|Y'].
        -- rewrite cos_neg, sin_neg, cos_PI2, sin_PI2, E, Rabs_left by lra. split; field; lra.
        -- exfalso. apply H. split; lra.
Qed.

(** a rotation preserves lengths and angles and is undone by the opposite rotation *)
Theorem C45_isometry : forall t vx vy, norm2 (rotate t vx vy) = norm2 (vx, vy).
Proof.
  intros. unfold norm2, rotate. cbn [fst snd]. f_equal.
  assert (E : sin t ^ 2 + cos t ^ 2 = 1) by (pose proof (sin2_cos2 t) as Q; unfold Rsqr in Q; lra).
  replace ((vx * cos t - vy * sin t) ^ 2 + (vx * sin t + vy * cos t) ^ 2)
     with ((vx ^ 2 + vy ^ 2) * (sin t ^ 2 + cos t ^ 2)) by ring. rewrite E. ring.
Qed.
Theorem C45_inner_product : forall t ax ay bx by_,
  let a := rotate t ax ay in let b := rotate t bx by_ in
  fst a * fst b + snd a * snd b = ax * bx + ay * by_
  /\ fst a * snd b - snd a * fst b = ax * by_ - ay * bx.
Proof.
  intros. unfold a, b, rotate. cbn [fst snd].
  assert (E : sin t ^ 2 + cos t ^ 2 = 1) by (pose proof (sin2_cos2 t) as Q; unfold Rsqr in Q; lra).
  split.
  - transitivity ((ax * bx + ay * by_) * (sin t ^ 2 + cos t ^ 2)); [ring|rewrite E; ring].
  - transitivity ((ax * by_ - ay * bx) * (sin t ^ 2 + cos t ^ 2)); [ring|rewrite E; ring].
Qed.
Theorem C45_round_trip : forall t vx vy,
  let v := rotate t vx vy in rotate (- t) (fst v) (snd v) = (vx, vy).
Proof.
  intros. unfold v, rotate. cbn [fst snd]. rewrite cos_neg, sin_neg.
  assert (E : sin t ^ 2 + cos t ^ 2 = 1) by (pose proof (sin2_cos2 t) as Q; unfold Rsqr in Q; lra).
  f_equal.
  - transitivity (vx * (sin t ^ 2 + cos t ^ 2)); [ring|rewrite E; ring].
  - transitivity (vy * (sin t ^ 2 + cos t ^ 2)); [ring|rewrite E; ring].
Qed.
(** the matrix returned with the angle is the rotation applied by the rotator *)
Theorem C45_matrix : forall t vx vy, let '((a, b), (c, d)) := rotation_matrix t in
  rotate t vx vy = (a * vx + b * vy, c * vx + d * vy).
Proof. intros. cbn [rotation_matrix]. unfold rotate. f_equal; ring. Qed.
(** north goes to the direction in which the transformed point moves when going north *)
Theorem C45_north : forall trans x y delta,
  let p := trans x y in let q := trans x (y + delta) in
  0 < delta -> q <> p ->
  let d := (fst q - fst p, snd q - snd p) in
  0 < norm2 d /\
  rotate (rotation_angle trans x y delta) 0 1 = (fst d / norm2 d, snd d / norm2 d).
Proof.
  intros trans x y delta p q Hd Hne d.
  unfold rotation_angle. fold p. fold q.
  assert (Hdn : ~ ((snd q - snd p) / delta = 0 /\ - ((fst q - fst p) / delta) = 0)).
  { intros (A & B). apply Hne. destruct p as [p1 p2], q as [q1 q2]. cbn [fst snd] in *.
    assert (q2 - p2 = 0) by (apply (Rmult_eq_reg_r (/ delta)); [rewrite Rmult_0_l; exact A|apply Rinv_neq_0_compat; lra]).
    assert (q1 - p1 = 0).
    { apply (Rmult_eq_reg_r (/ delta)); [rewrite Rmult_0_l; unfold Rdiv in B; lra|apply Rinv_neq_0_compat; lra]. }
    f_equal; lra. }
  destruct (polar (- ((fst q - fst p) / delta)) ((snd q - snd p) / delta) Hdn) as (R0 & C & S).
  set (r := sqrt _) in R0, C, S.
  assert (RN : r = norm2 d / delta).
  { unfold r, norm2, d. cbn [fst snd].
    replace (((snd q - snd p) / delta) ^ 2 + (- ((fst q - fst p) / delta)) ^ 2)
       with (((fst q - fst p) ^ 2 + (snd q - snd p) ^ 2) / (delta * delta)) by (field; lra).
    assert (A := pow2_ge_0 (fst q - fst p)). assert (B := pow2_ge_0 (snd q - snd p)).
    rewrite sqrt_div_alt by nra. rewrite sqrt_square by lra. reflexivity. }
  assert (N : 0 < norm2 d).
  { rewrite RN in R0. apply (Rmult_lt_reg_r (/ delta)); [apply Rinv_0_lt_compat; exact Hd|]. rewrite Rmult_0_l. exact R0. }
  split; [exact N|].
  destruct p as [p1 p2] eqn:EP, q as [q1 q2] eqn:EQ. cbn [fst snd] in *.
  unfold rotate. rewrite C, S, RN. unfold d. cbn [fst snd]. fold d. f_equal; field; split; lra.
Qed.
(** rotating the whole array does to every node what rotating the node does *)
Theorem C45_per_node : forall ts xs ys r, rotate_all ts xs ys = Some r ->
  length r = length ts /\
  forall i, (i < length ts)%nat -> rotate_node ts i (nth i xs 0) (nth i ys 0) = nth_error r i.
Proof.
  induction ts as [|t ts IH]; intros [|a xs] [|b ys] r E; cbn in E; try discriminate.
  - injection E as <-. split; [reflexivity|]. intros i Hi. cbn in Hi. lia.
  - destruct (rotate_all ts xs ys) as [r'|] eqn:E'; [|discriminate]. injection E as <-.
    destruct (IH xs ys r' E') as (L & H). split; [cbn; lia|].
    intros [|i] Hi; [reflexivity|]. cbn. apply H. cbn in Hi. lia.
Qed.
(** points with a non-finite coordinate stay non-finite and do not disturb the others *)
Theorem C45_nonfinite : forall trans xs ys r, proj_transform trans xs ys = Some r ->
  length r = length xs /\
  forall i x y, nth_error xs i = Some x -> nth_error ys i = Some y ->
    nth_error r i = Some (match x, y with
                          | Some x', Some y' => (Some (fst (trans x' y')), Some (snd (trans x' y')))
                          | _, _ => (None, None) end).
Proof.
  intros trans xs ys r E. unfold proj_transform in E.
  destruct (Nat.eqb_spec (length xs) (length ys)) as [L|]; [|discriminate]. injection E as <-.
  split; [rewrite map_length, combine_length; lia|].
  clear L. revert ys. induction xs as [|a xs IH]; intros [|b ys] i x y Hx Hy; destruct i as [|i]; cbn in Hx, Hy; try discriminate.
  - injection Hx as <-. injection Hy as <-. cbn.
    destruct a as [a|]; [destruct b as [b|]|]; try reflexivity. destruct (trans a b); reflexivity.
  - cbn. apply IH; assumption.
Qed.
(** positive_lon: the longitude is in [0, 360) and differs by full turns *)
Theorem C45_positive_longitude : forall lon, 0 <= lon_mod lon < 360 /\ exists k, lon_mod lon = lon + 360 * IZR k.
Proof.
  intro lon. unfold lon_mod. destruct (base_Int_part (lon / 360)) as (A & B).
  set (k := Int_part (lon / 360)) in *. split; [lra|]. exists (- k)%Z. rewrite opp_IZR. ring.
Qed.

Example C45_example : rotate (rotation_angle (fun x y => (- y, x)) 5 7 1) 0 1 = (-1, 0).
Proof.
  destruct (C45_north (fun x y => (- y, x)) 5 7 1 ltac:(lra)) as (_ & E).
  - intro F. injection F as F. lra.
  - rewrite E. cbn [fst snd]. unfold norm2. cbn [fst snd].
    match goal with |- context [sqrt ?e] => assert (Q : sqrt e = 1) by (replace e with 1 by ring; apply sqrt_1) end.
    rewrite Q. f_equal; lra.
Qed.

Print Assumptions C45_isometry.
Print Assumptions C45_round_trip.
Print Assumptions C45_north.
Print Assumptions C45_nonfinite.
