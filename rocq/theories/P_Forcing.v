(** C62: external forcing fields (atmosphere, ocean models, tides). *)
From Coq Require Import Reals List String Bool Arith Lra Lia.
From Verif Require Import Eos_Model Coords_Model P_Eos Forcing_Model.
Import ListNotations.
Open Scope string_scope.
Open Scope R_scope.
Open Scope list_scope.

(** The rotator of a map projection: the vector at a node is turned by the angle of the node
    (coordsys.py:177-191, property C40). *)
Definition projection_rotator (theta : nat -> R) : rotator :=
  [ (fun i e n => e * cos (theta i) - n * sin (theta i));
    (fun i e n => e * sin (theta i) + n * cos (theta i)) ].

Lemma done_inj : forall A (x y : A), Done x = Done y -> x = y.
Proof. intros A x y H. injection H. auto. Qed.
Lemma set_component_same : forall f c v i, set_component f c v i c = v i.
Proof. intros. unfold set_component. rewrite Nat.eqb_refl. reflexivity. Qed.
Lemma set_component_other : forall f c v i k, k <> c -> set_component f c v i k = f i k.
Proof. intros. unfold set_component. apply Nat.eqb_neq in H. rewrite H. reflexivity. Qed.

(* ------------------------------------------------------------------ *)
(** * Atmosphere *)

Lemma stress_known : forall e n, wind_stress 1.22 "LargeYeager2009" e n = Some (stress_at e n).
Proof.
  intros e n. unfold stress_at.
  destruct (wind_stress 1.22 "LargeYeager2009" e n) eqn:E; [reflexivity|].
  unfold wind_stress in E. cbn in E. discriminate.
Qed.

(** On a projected mesh the stress at every node is the one that the wind seen in mesh
    coordinates exerts, whatever the field contained before. *)
Theorem C62_wind_stress : forall units theta e n p f f',
  set_atm units 2 (projection_rotator theta) (e, n, p) f = Done f' ->
  forall i,
    let wx := cos (theta i) * e i - sin (theta i) * n i in
    let wy := sin (theta i) * e i + cos (theta i) * n i in
    wind_stress 1.22 "LargeYeager2009" wx wy = Some (af_stress f' i 0%nat, af_stress f' i 1%nat).
Proof.
  intros units theta e n p f f' H i wx wy.
  unfold set_atm, projection_rotator in H. cbn [Nat.eqb] in H.
  apply done_inj in H. subst f'. cbn [af_stress].
  rewrite set_component_same. rewrite set_component_other by discriminate. rewrite set_component_same.
  pose proof (stress_known (e i) (n i)) as K.
  destruct (stress_at (e i) (n i)) as [tx ty] eqn:E.
  pose proof (C53_rotation _ _ _ _ _ _ (theta i) K) as R.
  subst wx wy. rewrite R. cbv beta; rewrite ?E; cbn [fst snd]. f_equal. f_equal; ring.
Qed.

(** On a manifold the three components are those of the rotator; a rotator with another number
    of components is refused, and no other outcome exists. *)
Theorem C62_wind_stress_components : forall units dim rot e n p f,
  let want := if Nat.eqb dim 3 then 3%nat else 2%nat in
  match set_atm units dim rot (e, n, p) f with
  | Done f' => List.length rot = want /\
      (forall c g, nth_error rot c = Some g -> forall i,
         exists tx ty, wind_stress 1.22 "LargeYeager2009" (e i) (n i) = Some (tx, ty)
           /\ af_stress f' i c = g i tx ty) /\
      (forall c, (want <= c)%nat -> forall i, af_stress f' i c = af_stress f i c)
  | ValueError => List.length rot <> want
  | _ => False
  end.
Proof.
  intros units dim rot e n p f want. unfold set_atm.
  assert (S : forall i, exists tx ty, wind_stress 1.22 "LargeYeager2009" (e i) (n i) = Some (tx, ty)
     /\ fst (stress_at (e i) (n i)) = tx /\ snd (stress_at (e i) (n i)) = ty).
  { intro i. exists (fst (stress_at (e i) (n i))), (snd (stress_at (e i) (n i))).
    rewrite stress_known. rewrite <- surjective_pairing. auto. }
  subst want. destruct (Nat.eqb dim 3).
  - destruct rot as [|fu [|fv [|fz [|? ?]]]]; cbn [List.length]; try lia.
    split; [reflexivity|]. split.
    + intros c g Hc i. destruct (S i) as (tx & ty & K & E1 & E2). exists tx, ty. split; [exact K|].
      cbn [af_stress]. unfold set_component.
      destruct c as [|[|[|c]]]; cbn [nth_error Nat.eqb] in Hc |- *; try (injection Hc as <-; rewrite E1, E2; reflexivity).
      destruct c; discriminate.
    + intros c Hc i. cbn [af_stress]. unfold set_component.
      destruct c as [|[|[|c]]]; cbn; try lia; reflexivity.
  - destruct rot as [|fu [|fv [|? ?]]]; cbn [List.length]; try lia.
    split; [reflexivity|]. split.
    + intros c g Hc i. destruct (S i) as (tx & ty & K & E1 & E2). exists tx, ty. split; [exact K|].
      cbn [af_stress]. unfold set_component.
      destruct c as [|[|c]]; cbn [nth_error Nat.eqb] in Hc |- *; try (injection Hc as <-; rewrite E1, E2; reflexivity).
      destruct c; discriminate.
    + intros c Hc i. cbn [af_stress]. unfold set_component.
      destruct c as [|[|c]]; cbn; try lia; reflexivity.
Qed.

(** The pressure field is in Pascal for the two known units. *)
Theorem C62_pressure : forall units dim rot e n p f f',
  set_atm units dim rot (e, n, p) f = Done f' ->
  (units = "pa" -> forall i, af_pressure f' i = p i) /\
  (units = "hpa" -> forall i, af_pressure f' i = 100 * p i).
Proof.
  intros units dim rot e n p f f' H. unfold set_atm in H.
  split; intros -> i; cbn [String.eqb Ascii.eqb Bool.eqb] in H.
  - destruct (Nat.eqb dim 3); destruct rot as [|? [|? [|? [|? ?]]]]; try discriminate H; apply done_inj in H; subst f'; reflexivity.
  - destruct (Nat.eqb dim 3); destruct rot as [|? [|? [|? [|? ?]]]]; try discriminate H; apply done_inj in H; subst f';
      cbn [af_pressure]; lra.
Qed.

(** With any other unit string (for instance "Pa") nothing is refused and the pressure field
    silently keeps its old content. *)
Theorem C62_pressure_units_refuted : forall units, units <> "pa" -> units <> "hpa" ->
  forall theta vals f, exists f',
    set_atm units 2 (projection_rotator theta) vals f = Done f' /\ af_pressure f' = af_pressure f.
Proof.
  intros units H1 H2 theta [[e n] p] f. unfold set_atm, projection_rotator. cbn [Nat.eqb].
  apply String.eqb_neq in H1, H2. rewrite H1, H2. eexists. split; reflexivity.
Qed.

(** The fields depend on the last evaluation only: whatever was evaluated before. *)
Definition atm_run (units : string) (dim : nat) (rot : rotator) (data : R -> scalar * scalar * scalar)
  (ts : list R) (f : atm_fields) : result atm_fields :=
  fold_left (fun r t => match r with Done f => set_atm units dim rot (data t) f | e => e end) ts (Done f).
Theorem C62_atm_history : forall units dim rot data ts t f g g',
  units = "pa" \/ units = "hpa" ->
  (dim = 2%nat \/ dim = 3%nat) ->
  atm_run units dim rot data (ts ++ [t]) f = Done g ->
  set_atm units dim rot (data t) f = Done g' ->
  forall i, af_pressure g i = af_pressure g' i /\
    forall c, (c < dim)%nat -> af_stress g i c = af_stress g' i c.
Proof.
  intros units dim rot data ts t f g g' HU HD HR HS i.
  unfold atm_run in HR. rewrite fold_left_app in HR. cbn [fold_left] in HR.
  destruct (fold_left _ ts (Done f)) as [h| | |]; try discriminate HR.
  destruct (data t) as [[e n] p] eqn:ED.
  pose proof (C62_pressure _ _ _ _ _ _ _ _ HR) as P1. pose proof (C62_pressure _ _ _ _ _ _ _ _ HS) as P2.
  split.
  - destruct HU as [HU|HU].
    + rewrite (proj1 P1 HU i), (proj1 P2 HU i). reflexivity.
    + rewrite (proj2 P1 HU i), (proj2 P2 HU i). reflexivity.
  - intros c Hc.
    pose proof (C62_wind_stress_components units dim rot e n p h) as Q1.
    pose proof (C62_wind_stress_components units dim rot e n p f) as Q2.
    cbv zeta in Q1, Q2. rewrite HR in Q1. rewrite HS in Q2.
    destruct Q1 as (L1 & C1 & _). destruct Q2 as (L2 & C2 & _).
    assert (HL : (c < List.length rot)%nat).
    { rewrite L1. destruct HD as [HD|HD]; subst dim; cbn; exact Hc. }
    destruct (nth_error rot c) as [gc|] eqn:EN.
    2:{ apply nth_error_None in EN. lia. }
    destruct (C1 c gc EN i) as (tx & ty & K1 & E1). destruct (C2 c gc EN i) as (tx' & ty' & K2 & E2).
    rewrite K1 in K2. injection K2 as <- <-. rewrite E1, E2. reflexivity.
Qed.

(** The variables each class reads. *)
Theorem C62_variables : forall c,
  (c = ERA5 -> names_of c = mk_names "u10" "v10" "msl" "valid_time" "pa") /\
  (c = TCHazards -> names_of c = mk_names "Uw" "Vw" "Pr" "time" "hpa") /\
  (c = ATM -> an_east (names_of c) = "uwind" /\ an_north (names_of c) = "vwind" /\
              an_pressure (names_of c) = "prmsl" /\ an_units (names_of c) = "pa").
Proof. intros c. repeat split; intros; subst; reflexivity. Qed.
(** WRF and NAM files name their time variable 'time', the default of their time parser; the
    interpolator for them asks for 'valid_time'. *)
Theorem C62_atm_time_name_refuted : an_time (names_of ATM) <> "time".
Proof. cbn. discriminate. Qed.

(** ** Stamps kept from a forecast file *)
Lemma last_nth : forall (l : list R) d, last l d = nth (List.length l - 1) l d.
Proof.
  induction l as [|a [|b r] IH]; intro d; [reflexivity|reflexivity|].
  change (last (a :: b :: r) d) with (last (b :: r) d). rewrite IH. cbn [List.length].
  replace (S (S (List.length r)) - 1)%nat with (S (S (List.length r) - 1))%nat by lia. reflexivity.
Qed.
Definition uniform (t0 dt : R) (n : nat) : list R := map (fun i => t0 + INR i * dt) (seq 0 n).
Lemma mean_step_uniform : forall t0 dt n, (2 <= n)%nat -> mean_step (uniform t0 dt n) = dt.
Proof.
  intros t0 dt n Hn. unfold mean_step, uniform. rewrite last_nth, map_length, seq_length.
  set (F := fun i => t0 + INR i * dt).
  replace (nth (n - 1) (map F (seq 0 n)) 0) with (F (n - 1)%nat).
  2:{ transitivity (nth (n - 1) (map F (seq 0 n)) (F 0%nat)).
      - rewrite map_nth, seq_nth by lia. reflexivity.
      - apply nth_indep. rewrite map_length, seq_length. lia. }
  destruct n as [|n]; [lia|]. cbn [seq map hd]. unfold F. cbn [INR].
  replace (S n - 1)%nat with n by lia.
  assert (0 < INR n) by (apply lt_0_INR; lia). field. lra.
Qed.
Lemma int_of_bounds : forall x, 0 <= x -> INR (int_of x) <= x < INR (int_of x) + 1.
Proof.
  intros x Hx. unfold int_of. destruct (base_Int_part x) as [A B].
  assert (0 <= Int_part x)%Z.
  { apply le_IZR. assert (-1 < IZR (Int_part x)) by lra.
    assert (-1 < Int_part x)%Z by (apply lt_IZR; exact H). apply IZR_le. lia. }
  rewrite INR_IZR_INZ, Z2Nat.id by exact H. lra.
Qed.
Lemma firstn_uniform : forall t0 dt n k, (k <= n)%nat -> firstn k (uniform t0 dt n) = uniform t0 dt k.
Proof.
  intros t0 dt n k H. unfold uniform. rewrite firstn_map. f_equal.
  replace n with (k + (n - k))%nat by lia. rewrite seq_app, firstn_app, seq_length, Nat.sub_diag.
  cbn [firstn]. rewrite app_nil_r. rewrite <- (seq_length k 0) at 1. apply firstn_all.
Qed.

(** A file with evenly spaced stamps and a duration of at least one step keeps the stamps
    strictly before start + duration, all of them and nothing else - up to a stamp that would
    lie in the last incomplete step. *)
Theorem C62_duration : forall t0 dt n d, 0 < dt -> (2 <= n)%nat -> dt <= d ->
  exists k, (1 <= k <= n)%nat /\ kept_stamps (Some d) (uniform t0 dt n) = Done (uniform t0 dt k) /\
    (forall t, In t (uniform t0 dt k) -> t0 <= t /\ t + dt <= t0 + d) /\
    ((k < n)%nat -> forall i, (k <= i)%nat -> t0 + d < (t0 + INR i * dt) + dt).
Proof.
  intros t0 dt n d Hdt Hn Hd.
  assert (Hq : 1 <= d / dt). { apply Rmult_le_reg_r with dt; [exact Hdt|]. unfold Rdiv. rewrite Rmult_assoc, Rinv_l by lra. lra. }
  destruct (int_of_bounds (d / dt) ltac:(lra)) as [B1 B2].
  assert (Hm : (1 <= int_of (d / dt))%nat).
  { apply INR_le. cbn [INR]. destruct (int_of (d / dt)) as [|m]; [cbn in B2; lra|]. rewrite S_INR. pose proof (pos_INR m). lra. }
  assert (EQ : d / dt * dt = d) by (field; lra).
  exists (Nat.min (int_of (d / dt)) n). split; [lia|]. split.
  - unfold kept_stamps. rewrite mean_step_uniform by exact Hn.
    set (k := int_of (d / dt)) in *.
    assert (F : firstn k (uniform t0 dt n) = uniform t0 dt (Nat.min k n)).
    { destruct (Nat.le_gt_cases k n) as [L|L].
      - rewrite Nat.min_l by exact L. apply firstn_uniform; exact L.
      - rewrite Nat.min_r by lia. apply firstn_all2. unfold uniform. rewrite map_length, seq_length. lia. }
    rewrite F. destruct (uniform t0 dt n) eqn:E1.
    { unfold uniform in E1. destruct n; [lia|discriminate]. }
    destruct (uniform t0 dt (Nat.min k n)) eqn:E2; [|reflexivity].
    unfold uniform in E2. destruct (Nat.min k n) eqn:EM; [lia|discriminate].
  - split.
    + intros t Ht. unfold uniform in Ht. apply in_map_iff in Ht. destruct Ht as (i & <- & Hi).
      apply in_seq in Hi.
      assert (INR i + 1 <= INR (int_of (d / dt))) by (rewrite <- S_INR; apply le_INR; lia).
      pose proof (pos_INR i).
      assert ((INR i + 1) * dt <= d). { rewrite <- EQ. apply Rmult_le_compat_r; lra. }
      assert (0 <= INR i * dt) by (apply Rmult_le_pos; lra). lra.
    + intros Hk i Hi. assert (INR (int_of (d / dt)) <= INR i) by (apply le_INR; lia).
      assert (d < (INR i + 1) * dt). { rewrite <- EQ. apply Rmult_lt_compat_r; lra. } lra.
Qed.
(** Without a duration everything is kept. *)
Theorem C62_no_duration : forall times, times <> [] -> kept_stamps None times = Done times.
Proof. intros [|a r] H; [congruence|]. unfold kept_stamps. rewrite firstn_all. reflexivity. Qed.

Lemma int_of_unique : forall x (n : nat), INR n <= x < INR n + 1 -> int_of x = n.
Proof.
  intros x n H. pose proof (pos_INR n). destruct (int_of_bounds x ltac:(lra)) as [A B].
  assert (INR (int_of x) < INR (S n)) by (rewrite S_INR; lra).
  assert (INR n < INR (S (int_of x))) by (rewrite S_INR; lra).
  apply INR_lt in H1, H2. lia.
Qed.
(** The number of steps is computed from the mean step, so with uneven stamps data beyond the
    duration can be kept. *)
Theorem C62_duration_uneven_refuted : exists times d kept,
  kept_stamps (Some d) times = Done kept /\ exists t, In t kept /\ hd 0 times + d < t.
Proof.
  exists [0; 9; 10; 11], 8, [0; 9]. split.
  - unfold kept_stamps, mean_step. cbn [last hd List.length Nat.sub].
    rewrite (int_of_unique _ 2%nat); [reflexivity|]. cbn [INR]. lra.
  - exists 9. cbn. split; [auto|lra].
Qed.
(** A duration shorter than the step makes the file unreadable. *)
Theorem C62_short_duration_refuted : forall t0 dt n d, 0 < dt -> (2 <= n)%nat -> 0 <= d < dt ->
  kept_stamps (Some d) (uniform t0 dt n) = IndexError.
Proof.
  intros t0 dt n d Hdt Hn Hd. unfold kept_stamps. rewrite mean_step_uniform by exact Hn.
  rewrite (int_of_unique _ 0%nat).
  - destruct (uniform t0 dt n); reflexivity.
  - cbn [INR]. assert (EQ : d / dt * dt = d) by (field; lra). split.
    + apply Rmult_le_reg_r with dt; lra.
    + apply Rmult_lt_reg_r with dt; lra.
Qed.
Example ex_duration : exists k, kept_stamps (Some 24) (uniform 0 6 10) = Done (uniform 0 6 k) /\ (1 <= k <= 10)%nat.
Proof. destruct (C62_duration 0 6 10 24 ltac:(lra) ltac:(lia) ltac:(lra)) as (k & A & B & _). eauto. Qed.
