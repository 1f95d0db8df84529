(** C41: turbine thrust tables, C42: turbine distance constraints. *)
From Coq Require Import Reals List Lra Lia Psatz Arith Permutation.
From Verif Require Import Turbine_Model.
Import ListNotations.
Open Scope R_scope.

(** * C41 *)
(** strictly increasing list *)
Fixpoint increasing (xs : list R) : Prop :=
  match xs with x0 :: ((x1 :: _) as r) => x0 < x1 /\ increasing r | _ => True end.
Lemma increasing_tail : forall x xs, increasing (x :: xs) -> increasing xs.
Proof. intros x [|y xs] H; [exact I|]. destruct H; assumption. Qed.
Lemma increasing_lt : forall xs i j, increasing xs -> (i < j)%nat -> (j < length xs)%nat ->
  nth i xs 0 < nth j xs 0.
Proof.
  induction xs as [|x xs IH]; intros i j H Hij Hj; [cbn in Hj; lia|].
  destruct j as [|j]; [lia|]. destruct i as [|i].
  - destruct xs as [|y xs]; [cbn in Hj; lia|]. destruct H as [H1 H2].
    destruct j as [|j]; [cbn; exact H1|].
    apply Rlt_trans with y; [exact H1|].
    apply (IH 0%nat (S j) H2); [lia|cbn in *; lia].
  - apply (IH i j); [exact (increasing_tail _ _ H)|lia|cbn in Hj; lia].
Qed.

Lemma table_cons : forall x0 x1 rest y0 y1 ys yf x,
  interpolate_table (x0 :: x1 :: rest) (y0 :: y1 :: ys) yf x =
  match (match rest with [] => Some yf | _ :: _ => interpolate_table (x1 :: rest) (y1 :: ys) yf x end) with
  | None => None
  | Some a => Some (if Rlt_dec x x1 then ((x1 - x) * y0 + (x - x0) * y1) / (x1 - x0) else a)
  end.
Proof. reflexivity. Qed.
(** the table is evaluable exactly when it has two entries or more *)
Theorem C41_table_defined : forall xs ys yf x, length xs = length ys ->
  (interpolate_table xs ys yf x <> None <-> (2 <= length xs)%nat).
Proof.
  induction xs as [|x0 xs IH]; intros ys yf x HL; [cbn; split; [congruence|lia]|].
  destruct xs as [|x1 xs]; [cbn; split; [congruence|lia]|].
  destruct ys as [|y0 [|y1 ys]]; cbn in HL; try lia.
  split; [intros _; cbn; lia|intros _].
  rewrite table_cons. destruct xs as [|x2 xs].
  - intro F. inversion F.
  - specialize (IH (y1 :: ys) yf x). destruct IH as [_ IH]; [cbn in *; lia|].
    specialize (IH ltac:(cbn; lia)).
    destruct (interpolate_table (x1 :: x2 :: xs) (y1 :: ys) yf x) eqn:E; [intro F; inversion F|congruence].
Qed.

(** inside segment i the value is the linear interpolant of its end values *)
Theorem C41_table_segment : forall xs ys yf x i, increasing xs -> length xs = length ys ->
  (S i < length xs)%nat -> (i = 0%nat \/ nth i xs 0 <= x) -> x < nth (S i) xs 0 ->
  interpolate_table xs ys yf x =
  Some (nth i ys 0 + (x - nth i xs 0) / (nth (S i) xs 0 - nth i xs 0) * (nth (S i) ys 0 - nth i ys 0)).
Proof.
  induction xs as [|x0 xs IH]; intros ys yf x i Hinc HL Hi Hlo Hhi; [cbn in Hi; lia|].
  destruct xs as [|x1 xs]; [cbn in Hi; lia|].
  destruct ys as [|y0 [|y1 ys]]; cbn in HL; try lia.
  assert (H01 : x0 < x1) by (destruct Hinc; assumption).
  rewrite table_cons. destruct i as [|i].
  - cbn [nth] in Hhi.
    assert (E : exists a, match xs with [] => Some yf | _ :: _ => interpolate_table (x1 :: xs) (y1 :: ys) yf x end = Some a).
    { destruct xs as [|x2 xs]; [eexists; reflexivity|].
      destruct (interpolate_table (x1 :: x2 :: xs) (y1 :: ys) yf x) eqn:E; [eexists; reflexivity|].
      exfalso. apply (proj2 (C41_table_defined (x1 :: x2 :: xs) (y1 :: ys) yf x ltac:(cbn in *; lia)));
      [cbn; lia|exact E]. }
    destruct E as (a & ->). destruct (Rlt_dec x x1) as [_|F]; [|lra].
    cbn [nth]. f_equal. field. lra.
  - destruct Hlo as [Hlo|Hlo]; [lia|].
    destruct xs as [|x2 xs]; [cbn in Hi; lia|].
    assert (Hge : x1 <= x).
    { change (nth (S i) (x0 :: x1 :: x2 :: xs) 0) with (nth i (x1 :: x2 :: xs) 0) in Hlo.
      destruct i as [|i]; [exact Hlo|].
      pose proof (increasing_lt (x1 :: x2 :: xs) 0 (S i) (increasing_tail _ _ Hinc) ltac:(lia) ltac:(cbn in *; lia)) as Q.
      cbn [nth] in Q. cbn [nth] in Hlo. lra. }
    rewrite (IH (y1 :: ys) yf x i (increasing_tail _ _ Hinc) ltac:(cbn in *; lia) ltac:(cbn in *; lia)).
    + destruct (Rlt_dec x x1) as [F|_]; [lra|]. reflexivity.
    + right. exact Hlo.
    + exact Hhi.
Qed.
(** at and beyond the last entry the final value is taken *)
Theorem C41_table_above : forall xs ys yf x, increasing xs -> length xs = length ys ->
  (2 <= length xs)%nat -> last xs 0 <= x -> interpolate_table xs ys yf x = Some yf.
Proof.
  induction xs as [|x0 xs IH]; intros ys yf x Hinc HL H2 Hx; [cbn in H2; lia|].
  destruct xs as [|x1 xs]; [cbn in H2; lia|].
  destruct ys as [|y0 [|y1 ys]]; cbn in HL; try lia.
  rewrite table_cons. destruct xs as [|x2 xs].
  - cbn in Hx. destruct (Rlt_dec x x1); [lra|reflexivity].
  - assert (Hl : x1 < last (x0 :: x1 :: x2 :: xs) 0).
    { pose proof (increasing_lt (x1 :: x2 :: xs) 0 (length (x2 :: xs)) (increasing_tail _ _ Hinc) ltac:(cbn; lia) ltac:(cbn; lia)) as Q.
      cbn [nth] in Q. replace (last (x0 :: x1 :: x2 :: xs) 0) with (nth (length (x2 :: xs)) (x1 :: x2 :: xs) 0); [exact Q|].
      clear. change (last (x0 :: x1 :: x2 :: xs) 0) with (last (x1 :: x2 :: xs) 0).
      generalize x1 x2. induction xs as [|a l IH]; intros u v; [reflexivity|].
      change (nth (length (v :: a :: l)) (u :: v :: a :: l) 0) with (nth (length (a :: l)) (v :: a :: l) 0).
      change (last (u :: v :: a :: l) 0) with (last (v :: a :: l) 0). apply IH. }
    rewrite (IH (y1 :: ys) yf x (increasing_tail _ _ Hinc)); [|cbn in *; lia|cbn; lia|exact Hx].
    destruct (Rlt_dec x x1); [lra|reflexivity].
Qed.

(** the thrust curve of a tabulated turbine *)
Theorem C41_thrust_curve : forall speeds ct, increasing speeds -> length speeds = length ct ->
  (2 <= length speeds)%nat ->
  (forall u, u < nth 0 speeds 0 -> table_coefficient speeds ct u = Some 0)
  /\ (forall u i, (S i < length speeds)%nat -> nth i speeds 0 <= u -> u < nth (S i) speeds 0 ->
      table_coefficient speeds ct u =
      Some (nth i ct 0 + (u - nth i speeds 0) / (nth (S i) speeds 0 - nth i speeds 0) * (nth (S i) ct 0 - nth i ct 0)))
  /\ (forall i, (S i < length speeds)%nat -> table_coefficient speeds ct (nth i speeds 0) = Some (nth i ct 0))
  /\ (forall u, last speeds 0 <= u -> table_coefficient speeds ct u = Some 0).
Proof.
  intros speeds ct Hinc HL H2.
  assert (HD : forall u, exists v, interpolate_table speeds ct 0 u = Some v).
  { intro u. destruct (interpolate_table speeds ct 0 u) eqn:E; [eexists; reflexivity|].
    exfalso. apply (proj2 (C41_table_defined speeds ct 0 u HL) H2). exact E. }
  assert (HS : exists s0 r, speeds = s0 :: r) by (destruct speeds; [cbn in H2; lia|do 2 eexists; reflexivity]).
  destruct HS as (s0 & r & ES).
  assert (Hseg : forall u i, (S i < length speeds)%nat -> nth i speeds 0 <= u -> u < nth (S i) speeds 0 ->
      table_coefficient speeds ct u =
      Some (nth i ct 0 + (u - nth i speeds 0) / (nth (S i) speeds 0 - nth i speeds 0) * (nth (S i) ct 0 - nth i ct 0))).
  { intros u i Hi Hlo Hhi. unfold table_coefficient.
    rewrite (C41_table_segment speeds ct 0 u i Hinc HL Hi (or_intror Hlo) Hhi).
    assert (s0 <= u).
    { destruct i as [|i]; [rewrite ES in Hlo; exact Hlo|].
      pose proof (increasing_lt speeds 0 (S i) Hinc ltac:(lia) ltac:(lia)) as Q.
      rewrite ES in Q at 1. cbn [nth] in Q. lra. }
    rewrite ES. destruct (Rlt_dec u s0); [lra|]. reflexivity. }
  repeat split.
  - intros u Hu. unfold table_coefficient. destruct (HD u) as (v & ->). rewrite ES in *. cbn [nth] in Hu.
    destruct (Rlt_dec u s0); [reflexivity|lra].
  - exact Hseg.
  - intros i Hi. rewrite (Hseg _ i Hi).
    + f_equal. unfold Rdiv. ring.
    + lra.
    + apply increasing_lt; [exact Hinc|lia|exact Hi].
  - intros u Hu. unfold table_coefficient. rewrite (C41_table_above speeds ct 0 u Hinc HL H2 Hu).
    rewrite ES. destruct (Rlt_dec u s0); reflexivity.
Qed.
(** between neighbouring table values *)
Theorem C41_thrust_between : forall speeds ct u i v, increasing speeds -> length speeds = length ct ->
  (S i < length speeds)%nat -> nth i speeds 0 <= u -> u < nth (S i) speeds 0 ->
  table_coefficient speeds ct u = Some v ->
  Rmin (nth i ct 0) (nth (S i) ct 0) <= v <= Rmax (nth i ct 0) (nth (S i) ct 0).
Proof.
  intros speeds ct u i v Hinc HL Hi Hlo Hhi E.
  destruct (C41_thrust_curve speeds ct Hinc HL ltac:(lia)) as (_ & Hs & _).
  rewrite (Hs u i Hi Hlo Hhi) in E. injection E as E. rewrite <- E.
  set (a := nth i ct 0). set (b := nth (S i) ct 0). set (x0 := nth i speeds 0) in *. set (x1 := nth (S i) speeds 0) in *.
  assert (0 <= (u - x0) / (x1 - x0)) by (apply Rmult_le_pos; [lra|left; apply Rinv_0_lt_compat; lra]).
  assert ((u - x0) / (x1 - x0) <= 1).
  { apply (Rmult_le_reg_r (x1 - x0)); [lra|]. unfold Rdiv. rewrite Rmult_assoc, Rinv_l by lra. lra. }
  set (t := (u - x0) / (x1 - x0)) in *.
  destruct (Rle_dec a b).
  - rewrite Rmin_left, Rmax_right by lra. split; nra.
  - rewrite Rmin_right, Rmax_left by lra. split; nra.
Qed.
(** coefficients in [0, b] stay in [0, b] at every speed *)
Theorem C41_thrust_bounded : forall speeds ct u v b, increasing speeds -> length speeds = length ct ->
  (2 <= length speeds)%nat -> (forall y, In y ct -> 0 <= y <= b) -> 0 <= b ->
  table_coefficient speeds ct u = Some v -> 0 <= v <= b.
Proof.
  intros speeds ct u v b Hinc HL H2 Hb Hb0 E.
  destruct (C41_thrust_curve speeds ct Hinc HL H2) as (Hlow & _ & _ & Hhigh).
  destruct (Rlt_dec u (nth 0 speeds 0)) as [L|L]; [rewrite (Hlow u L) in E; injection E as E; lra|].
  destruct (Rle_dec (last speeds 0) u) as [L'|L']; [rewrite (Hhigh u L') in E; injection E as E; lra|].
  assert (HX : exists i, (S i < length speeds)%nat /\ nth i speeds 0 <= u < nth (S i) speeds 0).
  { assert (Hgen : forall n, (n < length speeds)%nat -> u < nth n speeds 0 ->
      exists i, (S i < length speeds)%nat /\ nth i speeds 0 <= u < nth (S i) speeds 0).
    { induction n as [|n IH]; intros Hn Hu; [lra|].
      destruct (Rlt_dec u (nth n speeds 0)) as [Q|Q]; [apply IH; [lia|exact Q]|].
      exists n. repeat split; [exact Hn|lra|exact Hu]. }
    apply (Hgen (length speeds - 1)%nat); [lia|].
    assert (EL : last speeds 0 = nth (length speeds - 1) speeds 0).
    { clear. induction speeds as [|a l IH]; [reflexivity|]. destruct l as [|b l]; [reflexivity|].
      change (last (a :: b :: l) 0) with (last (b :: l) 0). rewrite IH. cbn [length].
      replace (S (S (length l)) - 1)%nat with (S (length l)) by lia.
      replace (S (length l) - 1)%nat with (length l) by lia. reflexivity. }
    rewrite <- EL. lra. }
  destruct HX as (i & Hi & Hu1 & Hu2).
  pose proof (C41_thrust_between speeds ct u i v Hinc HL Hi Hu1 Hu2 E) as (B1 & B2).
  assert (C1 := Hb (nth i ct 0) (nth_In ct 0 (ltac:(lia) : (i < length ct)%nat))).
  assert (C2 := Hb (nth (S i) ct 0) (nth_In ct 0 (ltac:(lia) : (S i < length ct)%nat))).
  split.
  - eapply Rle_trans; [|exact B1]. apply Rmin_glb; lra.
  - eapply Rle_trans; [exact B2|]. apply Rmax_lub; lra.
Qed.
(** the table is not reproduced at its last speed: the value there is the final value *)
Theorem C41_last_node_refuted : exists speeds ct, increasing speeds /\ length speeds = length ct
  /\ (2 <= length speeds)%nat
  /\ table_coefficient speeds ct (last speeds 0) <> Some (last ct 0).
Proof.
  exists [1; 2; 3], [0.8; 0.8; 0.5].
  assert (Hinc : increasing [1; 2; 3]) by (cbn; lra).
  split; [exact Hinc|]. split; [reflexivity|]. split; [cbn; lia|].
  destruct (C41_thrust_curve [1; 2; 3] [0.8; 0.8; 0.5] Hinc eq_refl ltac:(cbn; lia)) as (_ & _ & _ & H).
  rewrite (H (last [1; 2; 3] 0)) by lra. cbn [last]. intro E. injection E as E. lra.
Qed.

(** default power coefficient: between 0 and the Betz limit 16/27 *)
Theorem C41_betz : forall c_t, 0 <= c_t <= 1 -> 0 <= default_cp c_t <= 16 / 27 /\ default_cp c_t <= c_t.
Proof.
  intros c H. unfold default_cp. set (x := sqrt (1 - c)).
  assert (Hx : x * x = 1 - c) by (apply sqrt_sqrt; lra). assert (H0 : 0 <= x) by apply sqrt_pos.
  assert (Hx1 : x <= 1) by nra.
  replace c with (1 - x * x) by lra. split; [split|]; try nra.
  assert (0 <= (x - 1 / 3) ^ 2 * (x + 5 / 3)) by (apply Rmult_le_pos; [apply pow2_ge_0|lra]). nra.
Qed.
Theorem C41_zero_power_coefficient_refuted : constant_cp (Some 0) 1 = 1 / 2.
Proof.
  unfold constant_cp. destruct (Req_EM_T 0 0); [|lra]. unfold default_cp.
  replace (1 - 1) with 0 by ring. rewrite sqrt_0. lra.
Qed.

(** upwind correction: the factor is the larger root of 4 a (1 - a) = thrust/(D H) *)
Theorem C41_velocity_correction : forall t c_t depth, upwind_correction t = true ->
  let beta := thrust_area t c_t / (proj_diameter t * depth) in
  let alpha := velocity_correction t c_t depth in
  0 <= beta <= 1 -> 1 / 2 <= alpha <= 1 /\ 4 * alpha * (1 - alpha) = beta.
Proof.
  intros t c_t depth Hu beta alpha Hb. unfold alpha, velocity_correction. rewrite Hu. fold beta.
  set (x := sqrt (1 - beta)).
  assert (Hx : x * x = 1 - beta) by (apply sqrt_sqrt; lra). assert (H0 : 0 <= x) by apply sqrt_pos.
  split; [nra|]. replace beta with (1 - x * x) by lra. lra.
Qed.
Theorem C41_friction_bounds : forall t c_t depth,
  let A := thrust_area t c_t in 0 <= A ->
  (upwind_correction t = true -> 0 <= A / (proj_diameter t * depth) <= 1) ->
  A / 2 <= friction_coefficient t c_t depth <= 2 * A
  /\ (upwind_correction t = false -> friction_coefficient t c_t depth = A / 2).
Proof.
  intros t c_t depth A HA Hb. unfold friction_coefficient. fold A.
  destruct (upwind_correction t) eqn:Hu.
  - pose proof (C41_velocity_correction t c_t depth Hu (Hb eq_refl)) as (Ha & _).
    set (a := velocity_correction t c_t depth) in *.
    assert (Ha2 : 1 / 4 <= a ^ 2 <= 1) by nra.
    assert (Hi : 1 <= / a ^ 2 <= 4).
    { split.
      - rewrite <- Rinv_1. apply Rinv_le_contravar; lra.
      - replace 4 with (/ (1 / 4)) by lra. apply Rinv_le_contravar; lra. }
    split; [|discriminate]. unfold Rdiv at 2. split; nra.
  - unfold velocity_correction. rewrite Hu. replace (A / 2 / 1 ^ 2) with (A / 2) by field. split; [lra|reflexivity].
Qed.

(** the reported power never exceeds the power the friction term removes from the flow,
    for a turbine without support drag that fits into the water column *)
Theorem C41_power_below_dissipation : forall t rho0 c_t u depth,
  0 < rho0 -> 0 <= c_t <= 1 -> 0 <= u -> 0 < diameter t -> diameter t <= depth ->
  C_support t = 0 -> projected_diameter t = None ->
  power t rho0 c_t (default_cp c_t) u depth <= rho0 * friction_coefficient t c_t depth * u * u ^ 2.
Proof.
  intros t rho c u H Hr Hc Hu HD HH HS HP.
  assert (EA : thrust_area t c = c * (PI * diameter t ^ 2 / 4)).
  { unfold thrust_area. destruct (Req_EM_T (C_support t) 0); [reflexivity|contradiction]. }
  assert (EP : proj_diameter t = diameter t) by (unfold proj_diameter; rewrite HP; reflexivity).
  set (D := diameter t) in *. set (A := PI * D ^ 2 / 4) in *.
  assert (HPI : 0 < PI <= 4) by (split; [apply PI_RGT_0|apply PI_4]).
  assert (HA : 0 < A) by (unfold A; assert (0 < D ^ 2) by (apply pow_lt; exact HD); nra).
  assert (HDH : 0 < D * H) by nra.
  assert (HADH : A <= D * H).
  { unfold A. assert (PI * D ^ 2 <= 4 * D ^ 2) by (apply Rmult_le_compat_r; [apply pow2_ge_0|lra]). nra. }
  (* the correction is at least the default ratio of power to thrust *)
  set (a := velocity_correction t c H).
  assert (Ha : (1 + sqrt (1 - c)) / 2 <= a /\ 0 < a).
  { unfold a, velocity_correction. pose proof (sqrt_pos (1 - c)).
    destruct (upwind_correction t).
    - rewrite EA, EP. fold D. 
      assert (Q : sqrt (1 - c) <= sqrt (1 - c * A / (D * H))).
      { apply sqrt_le_1_alt. assert (c * A / (D * H) <= c); [|lra].
        apply (Rmult_le_reg_r (D * H)); [exact HDH|]. unfold Rdiv. rewrite Rmult_assoc, Rinv_l by lra. nra. }
      split; lra.
    - assert (sqrt (1 - c) <= 1) by (rewrite <- sqrt_1 at 2; apply sqrt_le_1_alt; lra). lra. }
  destruct Ha as (Ha & Ha0).
  unfold power, friction_coefficient. fold a. rewrite EA. fold D. fold A. unfold default_cp.
  set (x := sqrt (1 - c)) in *.
  assert (Hu3 : 0 <= u ^ 3) by (apply pow_le; exact Hu).
  replace (rho * (c * A / 2 / a ^ 2) * u * u ^ 2) with ((rho * A * c * / a ^ 3 * u ^ 3) * (a / 2)) by (field; lra).
  replace (0.5 * rho * A * (0.5 * c * (1 + x)) * (u ^ 3 / a ^ 3))
     with ((rho * A * c * / a ^ 3 * u ^ 3) * ((1 + x) / 2 / 2)).
  2:{ replace 0.5 with (1 / 2) by lra. field. lra. }
  apply Rmult_le_compat_l; [|lra].
  assert (0 < / a ^ 3) by (apply Rinv_0_lt_compat, pow_lt; exact Ha0).
  apply Rmult_le_pos; [|exact Hu3]. apply Rmult_le_pos; [|lra]. apply Rmult_le_pos; [|lra].
  apply Rmult_le_pos; lra.
Qed.

(** the rotor weightings sum to one, so the rotor average lies between the smallest and
    the largest sample *)
Theorem C41_rotor_weights : wsum rotor_weightings (repeat 1 10) = 1 /\ Forall (fun w => 0 < w) rotor_weightings.
Proof. unfold rotor_weightings. split; [cbn [wsum repeat]; lra|repeat constructor; lra]. Qed.
Lemma wsum_bounds : forall ws xs lo hi, length ws = length xs -> Forall (fun w => 0 < w) ws ->
  Forall (fun x => lo <= x <= hi) xs ->
  wsum ws (repeat 1 (length ws)) * lo <= wsum ws xs <= wsum ws (repeat 1 (length ws)) * hi.
Proof.
  induction ws as [|w ws IH]; intros [|x xs] lo hi HL HW HX; cbn in *; try lia; [lra|].
  inversion HW; subst. inversion HX; subst.
  specialize (IH xs lo hi ltac:(lia) H2 H4). nra.
Qed.
Theorem C41_rotor_average : forall samples lo hi, length samples = 10%nat -> 0 < lo ->
  Forall (fun u => lo <= u <= hi) samples -> lo <= rotor_average rotor_weightings samples <= hi.
Proof.
  intros samples lo hi HL Hlo HX. unfold rotor_average.
  assert (Hhi : lo <= hi) by (destruct samples; [discriminate|inversion HX; lra]).
  assert (HX3 : Forall (fun u => lo ^ 3 <= u <= hi ^ 3) (map (fun u => u ^ 3) samples)).
  { apply Forall_forall. intros y Hy. apply in_map_iff in Hy. destruct Hy as (u & <- & Hu).
    rewrite Forall_forall in HX. specialize (HX u Hu). split; apply pow_incr; lra. }
  destruct C41_rotor_weights as (W1 & W2).
  pose proof (wsum_bounds rotor_weightings (map (fun u => u ^ 3) samples) (lo ^ 3) (hi ^ 3)
    ltac:(rewrite map_length, HL; reflexivity) W2 HX3) as B.
  change (length rotor_weightings) with 10%nat in B. rewrite W1 in B. rewrite !Rmult_1_l in B.
  set (S := wsum rotor_weightings _) in *.
  assert (R : forall x, 0 < x -> Rpower (x ^ 3) (1 / 3) = x).
  { intros x Hx. rewrite <- Rpower_pow by exact Hx. rewrite Rpower_mult.
    replace (INR 3 * (1 / 3)) with 1 by (simpl; lra). apply Rpower_1. exact Hx. }
  assert (P : 0 < lo ^ 3) by (apply pow_lt; exact Hlo).
  split; [rewrite <- (R lo) at 1 by lra|rewrite <- (R hi) by lra]; apply Rle_Rpower_l; lra.
Qed.

(** turbine density: never negative, zero away from the turbines, independent of the
    order of the coordinates, additive *)
Lemma bump1_range : forall d, 0 <= bump1 d <= 1 /\ (1 <= Rabs d -> bump1 d = 0) /\ (Rabs d < 1 -> 0 < bump1 d).
Proof.
  intro d. unfold bump1. destruct (Rlt_dec (Rabs d) 1) as [H|H].
  - assert (Hd : 0 < 1 - d ^ 2 <= 1).
    { pose proof (Rabs_pos d). pose proof (pow2_abs d). nra. }
    assert (1 <= 1 / (1 - d ^ 2)).
    { unfold Rdiv. rewrite Rmult_1_l. rewrite <- Rinv_1 at 1. apply Rinv_le_contravar; lra. }
    pose proof (exp_pos (1 - 1 / (1 - d ^ 2))). repeat split; try lra.
    set (e := 1 - 1 / (1 - d ^ 2)) in *. assert (He : e <= 0) by (unfold e; lra).
    rewrite <- exp_0. destruct (Req_dec e 0) as [E0|Hne]; [rewrite E0; lra|].
    left. apply exp_increasing. lra.
  - repeat split; lra.
Qed.
Lemma add_turbines_acc : forall r cs x y a, add_turbines r cs x y a = a + add_turbines r cs x y 0.
Proof.
  intros r cs x y. unfold add_turbines.
  induction cs as [|c cs IH]; intros a; cbn [fold_left]; [ring|].
  rewrite IH. rewrite (IH (0 + _)). ring.
Qed.
Theorem C41_density : forall r cs x y, 0 < r ->
  0 <= add_turbines r cs x y 0
  /\ (Forall (fun c => r <= Rabs (x - fst c) \/ r <= Rabs (y - snd c)) cs -> add_turbines r cs x y 0 = 0)
  /\ (forall cs', add_turbines r (cs ++ cs') x y 0 = add_turbines r cs x y 0 + add_turbines r cs' x y 0)
  /\ (forall cs', Permutation cs cs' -> add_turbines r cs x y 0 = add_turbines r cs' x y 0).
Proof.
  intros r cs x y Hr.
  assert (K : 0 < r ^ 2 * 1.45661) by (assert (0 < r ^ 2) by (apply pow_lt; exact Hr); nra).
  assert (CONS : forall c l, add_turbines r (c :: l) x y 0 =
     bump1 ((x - fst c) / r) * bump1 ((y - snd c) / r) / (r ^ 2 * 1.45661) + add_turbines r l x y 0).
  { intros c l. transitivity (add_turbines r l x y (0 + bump1 ((x - fst c) / r) * bump1 ((y - snd c) / r) / (r ^ 2 * 1.45661)));
    [reflexivity|]. rewrite add_turbines_acc. ring. }
  assert (APP : forall l l', add_turbines r (l ++ l') x y 0 = add_turbines r l x y 0 + add_turbines r l' x y 0).
  { intros l l'. induction l as [|c l IH]; [cbn [app]; change (add_turbines r [] x y 0) with 0; ring|].
    cbn [app]. rewrite !CONS, IH. ring. }
  repeat split.
  - induction cs as [|c cs IH]; [unfold add_turbines; cbn; lra|]. rewrite CONS.
    destruct (bump1_range ((x - fst c) / r)) as ((B1 & _) & _).
    destruct (bump1_range ((y - snd c) / r)) as ((B2 & _) & _).
    assert (0 <= bump1 ((x - fst c) / r) * bump1 ((y - snd c) / r) / (r ^ 2 * 1.45661)).
    { apply Rmult_le_pos; [apply Rmult_le_pos; assumption|left; apply Rinv_0_lt_compat; exact K]. }
    lra.
  - intro HF. induction HF as [|c l Hc HF IH]; [reflexivity|]. rewrite CONS, IH.
    assert (Q : forall v, r <= Rabs v -> bump1 (v / r) = 0).
    { intros v Hv. apply bump1_range. unfold Rdiv. rewrite Rabs_mult, (Rabs_right (/ r)) by (left; apply Rinv_0_lt_compat; exact Hr).
      apply (Rmult_le_reg_r r); [exact Hr|]. rewrite Rmult_assoc, Rinv_l by lra. lra. }
    destruct Hc as [Hc|Hc]; rewrite (Q _ Hc); unfold Rdiv; ring.
  - apply APP.
  - intros cs' HP. induction HP as [|c l l' HP IH|a b l|l1 l2 l3 _ IH1 _ IH2]; [reflexivity| | |].
    + rewrite !CONS, IH. reflexivity.
    + rewrite !CONS. ring.
    + rewrite IH1, IH2. reflexivity.
Qed.

(** farm performance: the reported averages are the time averages of all evaluations *)
Theorem C41_average_power : forall dt be cost powers, dt > 0 -> powers <> [] ->
  let s := fold_left (tfc_step dt be cost) powers tfc_init in
  let mean := fold_right Rplus 0 powers / INR (length powers) in
  average_power s = mean /\ average_profit s = mean - be * cost
  /\ time_period s = INR (length powers) * dt.
Proof.
  intros dt be cost powers Hdt Hne s mean.
  assert (G : forall l s0, let s' := fold_left (tfc_step dt be cost) l s0 in
     time_period s' = time_period s0 + INR (length l) * dt
     /\ integrated_power s' = integrated_power s0 + fold_right Rplus 0 l * dt
     /\ (l <> [] -> average_power s' = integrated_power s' / time_period s'
                    /\ average_profit s' = integrated_power s' / time_period s' - be * cost)).
  { induction l as [|p l IH]; intro s0.
    - cbn. repeat split; try ring; congruence.
    - cbn [fold_left]. destruct (IH (tfc_step dt be cost s0 p)) as (A & B & C).
      cbv zeta. rewrite A, B. unfold tfc_step at 1 2. cbn [time_period integrated_power].
      split; [cbn [length]; rewrite S_INR; ring|]. split; [cbn [fold_right]; ring|].
      intros _. destruct l as [|q l].
      + cbn [fold_left length fold_right tfc_step average_power average_profit integrated_power time_period INR].
        replace (integrated_power s0 + p * dt + 0 * dt) with (integrated_power s0 + p * dt) by ring.
        replace (time_period s0 + dt + 0 * dt) with (time_period s0 + dt) by ring. split; reflexivity.
      + destruct (C ltac:(discriminate)) as (C1 & C2). rewrite C1, C2, A, B. split; reflexivity. }
  destruct (G powers tfc_init) as (A & B & C). specialize (C Hne). destruct C as (C1 & C2).
  fold s in A, B, C1, C2. cbn [tfc_init time_period integrated_power] in A, B.
  assert (HN : 0 < INR (length powers)) by (apply lt_0_INR; destruct powers; [congruence|cbn; lia]).
  assert (E : integrated_power s / time_period s = mean).
  { rewrite A, B. unfold mean. field. split; lra. }
  rewrite C1, C2, E. repeat split. rewrite A. ring.
Qed.

(** * C42 *)
(** the pairs (i, j) of turbines with j < i *)
Lemma pairs_spec : forall n i j, In (i, j) (pairs n) <-> (j < i < n)%nat.
Proof.
  intros n i j. unfold pairs. rewrite in_flat_map. split.
  - intros (i' & Hi & H). apply in_flat_map in H. destruct H as (j' & Hj & H).
    apply in_seq in Hi. apply in_seq in Hj. destruct (Nat.leb_spec i' j'); [destruct H|].
    destruct H as [H|[]]. injection H as <- <-. lia.
  - intros (H1 & H2). exists i. split; [apply in_seq; lia|].
    apply in_flat_map. exists j. split; [apply in_seq; lia|].
    destruct (Nat.leb_spec i j); [lia|]. left. reflexivity.
Qed.
Lemma row_pairs : forall i n, (i <= n)%nat ->
  flat_map (fun j => if (i <=? j)%nat then [] else [(i, j)]) (seq 0 n) = map (fun j => (i, j)) (seq 0 i).
Proof.
  intros i n H. replace n with (i + (n - i))%nat by lia. rewrite seq_app, flat_map_app.
  assert (A : flat_map (fun j => if (i <=? j)%nat then [] else [(i, j)]) (seq (0 + i) (n - i)) = []).
  { apply (fun P => P). generalize (n - i)%nat. intro k. cbn [Nat.add].
    assert (Q : forall s, (i <= s)%nat -> flat_map (fun j => if (i <=? j)%nat then [] else [(i, j)]) (seq s k) = []).
    { induction k as [|k IH]; intros s Hs; [reflexivity|]. cbn. destruct (Nat.leb_spec i s); [|lia]. cbn. apply IH. lia. }
    apply Q. lia. }
  rewrite A, app_nil_r.
  assert (Q : forall k s, (s + k <= i)%nat ->
    flat_map (fun j => if (i <=? j)%nat then [] else [(i, j)]) (seq s k) = map (fun j => (i, j)) (seq s k)).
  { induction k as [|k IH]; intros s Hs; [reflexivity|]. cbn. destruct (Nat.leb_spec i s); [lia|]. cbn. f_equal. apply IH. lia. }
  apply Q. lia.
Qed.
Lemma pairs_rows : forall n, pairs n = flat_map (fun i => map (fun j => (i, j)) (seq 0 i)) (seq 0 n).
Proof.
  intro n. unfold pairs.
  assert (Q : forall l, (forall i, In i l -> (i <= n)%nat) ->
    flat_map (fun i => flat_map (fun j => if (i <=? j)%nat then [] else [(i, j)]) (seq 0 n)) l
    = flat_map (fun i => map (fun j => (i, j)) (seq 0 i)) l).
  { induction l as [|a l IH]; intro H; [reflexivity|]. cbn [flat_map]. rewrite row_pairs by (apply H; left; reflexivity).
    f_equal. apply IH. intros i Hi. apply H. right. exact Hi. }
  apply Q. intros i Hi. apply in_seq in Hi. lia.
Qed.
Lemma pairs_NoDup : forall n, NoDup (pairs n).
Proof.
  intro n. rewrite pairs_rows.
  assert (Q : forall l, NoDup l -> NoDup (flat_map (fun i => map (fun j => (i, j)) (seq 0 i)) l)).
  { induction l as [|a l IH]; intro H; [constructor|]. inversion H; subst. cbn [flat_map].
    assert (ND : NoDup (map (fun j => (a, j)) (seq 0 a))).
    { apply FinFun.Injective_map_NoDup; [intros u v E; congruence|apply seq_NoDup]. }
    assert (DJ : forall p, In p (map (fun j => (a, j)) (seq 0 a)) ->
      ~ In p (flat_map (fun i => map (fun j => (i, j)) (seq 0 i)) l)).
    { intros p Hp F. apply in_map_iff in Hp. destruct Hp as (j & <- & _).
      apply in_flat_map in F. destruct F as (i & Hi & F). apply in_map_iff in F. destruct F as (j' & E & _).
      injection E as E _. subst i. contradiction. }
    specialize (IH H3). revert ND DJ. generalize (map (fun j => (a, j)) (seq 0 a)).
    intros l0 ND DJ. induction ND as [|p l0 Hp ND IHl]; [exact IH|].
    cbn [app]. constructor.
    - intro F. apply in_app_or in F. destruct F as [F|F]; [contradiction|].
      apply (DJ p (or_introl eq_refl)). exact F.
    - apply IHl. intros q Hq. apply DJ. right. exact Hq. }
  apply Q. apply seq_NoDup.
Qed.
Lemma pairs_length : forall n, length (pairs n) = length_constraints n.
Proof.
  intro n. rewrite pairs_rows. unfold length_constraints.
  assert (H : (2 * length (flat_map (fun i => map (fun j => (i, j)) (seq 0 i)) (seq 0 n)) = n * (n - 1))%nat).
  { induction n as [|n IH]; [reflexivity|].
    rewrite seq_S, flat_map_app, app_length. cbn [flat_map Nat.add]. rewrite app_nil_r, map_length, seq_length.
    destruct n; [reflexivity|]. nia. }
  apply Nat.div_unique with (r := 0%nat); lia.
Qed.

(** one constraint per unordered pair of turbines, and length() is their number *)
Theorem C42_one_constraint_per_pair : forall n d m,
  length (constraints d n m) = length_constraints n
  /\ (forall i j, (i < n)%nat -> (j < n)%nat -> i <> j ->
      exists! r, (r < length_constraints n)%nat /\
        (nth r (pairs n) (0, 0)%nat = (i, j) \/ nth r (pairs n) (0, 0)%nat = (j, i))).
Proof.
  intros n d m. split; [unfold constraints; rewrite map_length; apply pairs_length|].
  intros i j Hi Hj Hij.
  assert (W : forall a b, (b < a < n)%nat -> exists r, (r < length_constraints n)%nat /\ nth r (pairs n) (0, 0)%nat = (a, b)).
  { intros a b H. apply pairs_spec in H. destruct (In_nth _ _ (0, 0)%nat H) as (r & Hr & E).
    exists r. split; [rewrite <- pairs_length; exact Hr|exact E]. }
  assert (U : forall r r' a b, (r < length_constraints n)%nat -> (r' < length_constraints n)%nat ->
    (nth r (pairs n) (0, 0)%nat = (a, b)) -> nth r' (pairs n) (0, 0)%nat = (a, b) -> r = r').
  { intros r r' a b H1 H2 E1 E2. rewrite <- pairs_length in H1, H2.
    apply (proj1 (NoDup_nth (pairs n) (0, 0)%nat) (pairs_NoDup n) r r' H1 H2). congruence. }
  assert (O : forall r a b, (r < length_constraints n)%nat -> nth r (pairs n) (0, 0)%nat = (a, b) -> (b < a)%nat).
  { intros r a b H E. rewrite <- pairs_length in H. pose proof (nth_In (pairs n) (0, 0)%nat H) as Q.
    rewrite E in Q. apply pairs_spec in Q. lia. }
  destruct (Nat.lt_trichotomy i j) as [L|[L|L]]; [|congruence|].
  - destruct (W j i ltac:(lia)) as (r & Hr & E). exists r. split; [split; [exact Hr|right; exact E]|].
    intros r' (Hr' & [E'|E']); [apply (O _ _ _ Hr') in E'; lia|]. eapply U; eassumption.
  - destruct (W i j ltac:(lia)) as (r & Hr & E). exists r. split; [split; [exact Hr|left; exact E]|].
    intros r' (Hr' & [E'|E']); [eapply U; eassumption|]. apply (O _ _ _ Hr') in E'. lia.
Qed.

(** Euclidean distance of turbines i and j *)
Definition dist_ij (m : nat -> R) (i j : nat) : R :=
  sqrt ((m (2 * i)%nat - m (2 * j)%nat) ^ 2 + (m (2 * i + 1)%nat - m (2 * j + 1)%nat) ^ 2).
Lemma constraint_dist : forall d m i j, 0 <= d ->
  (0 <= constraint d m (i, j) <-> d <= dist_ij m i j).
Proof.
  intros d m i j Hd. unfold constraint, dist_ij.
  set (q := (m (2 * i)%nat - m (2 * j)%nat) ^ 2 + (m (2 * i + 1)%nat - m (2 * j + 1)%nat) ^ 2).
  assert (Hq : 0 <= q) by (unfold q; assert (A := pow2_ge_0 (m (2 * i)%nat - m (2 * j)%nat)); assert (B := pow2_ge_0 (m (2 * i + 1)%nat - m (2 * j + 1)%nat)); lra).
  pose proof (sqrt_sqrt q Hq) as E. pose proof (sqrt_pos q) as P. split; intro H.
  - apply Rnot_lt_le. intro F. assert (sqrt q * sqrt q < d * d) by nra. nra.
  - nra.
Qed.
Lemma dist_sym : forall m i j, dist_ij m i j = dist_ij m j i.
Proof. intros. unfold dist_ij. f_equal. ring. Qed.
(** the constraints are all non-negative exactly when all turbines keep the distance *)
Theorem C42_feasible_iff_distances : forall n d m, 0 <= d ->
  (Forall (fun v => 0 <= v) (constraints d n m)
   <-> forall i j, (i < n)%nat -> (j < n)%nat -> i <> j -> d <= dist_ij m i j).
Proof.
  intros n d m Hd. unfold constraints. rewrite Forall_forall. split.
  - intros H i j Hi Hj Hij.
    destruct (Nat.lt_trichotomy i j) as [L|[L|L]]; [|congruence|].
    + rewrite dist_sym. apply constraint_dist; [exact Hd|]. apply H. apply in_map. apply pairs_spec. lia.
    + apply constraint_dist; [exact Hd|]. apply H. apply in_map. apply pairs_spec. lia.
  - intros H v Hv. apply in_map_iff in Hv. destruct Hv as ((i, j) & <- & Hp).
    apply pairs_spec in Hp. apply constraint_dist; [exact Hd|]. apply H; lia.
Qed.

(** each entry of the Jacobian is the partial derivative of its constraint *)
Theorem C42_jacobian : forall n d m r c, (r < length_constraints n)%nat -> (c < 2 * n)%nat ->
  derivable_pt_lim (fun t => nth r (constraints d n (update m c t)) 0) (m c)
                   (nth r (jacobian n m) (fun _ => 0) c).
Proof.
  intros n d m r c Hr Hc. rewrite <- pairs_length in Hr.
  destruct (nth r (pairs n) (0, 0)%nat) as [i j] eqn:E.
  assert (Hp : (j < i < n)%nat) by (apply pairs_spec; rewrite <- E; apply nth_In; exact Hr).
  assert (EF : forall t, nth r (constraints d n (update m c t)) 0 = constraint d (update m c t) (i, j)).
  { intro t. unfold constraints. rewrite (nth_indep _ 0 (constraint d (update m c t) (0, 0)%nat)) by (rewrite map_length; exact Hr).
    rewrite map_nth, E. reflexivity. }
  assert (EJ : nth r (jacobian n m) (fun _ => 0) c = jacobian_row m (i, j) c).
  { unfold jacobian. rewrite (nth_indep _ (fun _ => 0) (jacobian_row m (0, 0)%nat)) by (rewrite map_length; exact Hr).
    rewrite map_nth, E. reflexivity. }
  rewrite EJ. intros eps Heps. exists (mkposreal eps Heps). cbn [pos]. intros hh Hh0 Hh. rewrite !EF.
  set (q := if ((c =? 2 * i) || (c =? 2 * j) || (c =? 2 * i + 1) || (c =? 2 * j + 1))%nat%bool then 1 else 0).
  assert (Ex : constraint d (update m c (m c + hh)) (i, j) - constraint d (update m c (m c)) (i, j)
               = hh * jacobian_row m (i, j) c + q * hh ^ 2).
  { unfold constraint, jacobian_row, update, q.
    destruct (Nat.eqb_spec (2 * i) c); destruct (Nat.eqb_spec (2 * j) c);
    destruct (Nat.eqb_spec (2 * i + 1) c); destruct (Nat.eqb_spec (2 * j + 1) c); try lia;
    destruct (Nat.eqb_spec c (2 * i)); destruct (Nat.eqb_spec c (2 * j));
    destruct (Nat.eqb_spec c (2 * i + 1)); destruct (Nat.eqb_spec c (2 * j + 1)); try lia;
    cbn [orb]; subst; ring. }
  replace ((constraint d (update m c (m c + hh)) (i, j) - constraint d (update m c (m c)) (i, j)) / hh
           - jacobian_row m (i, j) c) with (q * hh) by (rewrite Ex; field; exact Hh0).
  rewrite Rabs_mult. assert (0 <= Rabs q <= 1).
  { unfold q. destruct (_ || _)%bool; [rewrite Rabs_R1|rewrite Rabs_R0]; lra. }
  pose proof (Rabs_pos hh). nra.
Qed.

(** * Examples *)
Example C41_table_example : exists v, table_coefficient [1; 2; 4] [0; 0.8; 0.4] 3 = Some v /\ v = 0.6.
Proof.
  destruct (C41_thrust_curve [1; 2; 4] [0; 0.8; 0.4] ltac:(cbn; lra) eq_refl ltac:(cbn; lia)) as (_ & H & _).
  eexists. split; [apply (H 3 1%nat); [cbn; lia|cbn; lra|cbn; lra]|]. cbn. lra.
Qed.
Example C42_pairs_example : pairs 3 = [(1, 0); (2, 0); (2, 1)]%nat.
Proof. reflexivity. Qed.
Example C42_constraints_example :
  constraints 1 2 (fun k => nth k [0; 0; 3; 4] 0) = [24].
Proof. unfold constraints; cbn. f_equal. ring. Qed.

Print Assumptions C41_thrust_curve.
Print Assumptions C41_thrust_bounded.
Print Assumptions C41_betz.
Print Assumptions C41_rotor_average.
Print Assumptions C41_density.
Print Assumptions C41_average_power.
Print Assumptions C42_one_constraint_per_pair.
Print Assumptions C42_feasible_iff_distances.
Print Assumptions C42_jacobian.
