(** Properties of date conversion (C35). *)
From Verif Require Import Num Timezone_Model Timezone_Spec Timezone_Proofs.
Open Scope Z_scope.

(** Converting a date to epoch seconds and back gives the same instant, in UTC. *)
Theorem C35_datetime_round_trip : forall t, valid_datetime t -> dt_offset t = 0 ->
  epoch_to_datetime (datetime_to_epoch t) = Some t.
Proof.
  intros t V O. unfold epoch_to_datetime. rewrite epoch_us, round_qz. now apply dt_add_diff.
Qed.

(** Epoch seconds to a date and back: exact for whole microseconds, otherwise
    rounded to the nearest microsecond; defined exactly for years 1 to 9999. *)
Theorem C35_epoch_round_trip : forall us t, epoch_to_datetime (qq us 1000000) = Some t ->
  valid_datetime t /\ dt_offset t = 0 /\ datetime_to_epoch t = qq us 1000000.
Proof.
  intros us t H. unfold epoch_to_datetime in H. rewrite qq_qz, <- Qcmult_assoc, million, Qcmult_1_r, round_qz in H.
  apply dt_add_valid in H. destruct H as (V & D & O). split; auto. split; [exact O|].
  unfold datetime_to_epoch. now rewrite D.
Qed.
Theorem C35_epoch_rounding : forall x t, epoch_to_datetime x = Some t ->
  valid_datetime t /\ dt_offset t = 0 /\ (x - qq 1 2000000 <= datetime_to_epoch t <= x + qq 1 2000000)%Qc.
Proof.
  intros x t H. unfold epoch_to_datetime in H.
  apply dt_add_valid in H. destruct H as (V & D & O). split; auto. split; [exact O|].
  unfold datetime_to_epoch. rewrite D, (qq_qz (round_half_even _)).
  destruct (round_close (x * qz 1000000)%Qc) as [A B].
  set (r := qz (round_half_even _)) in *. clearbody r.
  assert (E : (x = x * qz 1000000 * qq 1 1000000)%Qc) by (rewrite <- Qcmult_assoc, (Qcmult_comm (qz 1000000)), million; ring).
  assert (Hh : qq 1 2000000 = (qq 1 2 * qq 1 1000000)%Qc) by (apply qc_eq_iff; reflexivity).
  assert (Hp : (0 <= qq 1 1000000)%Qc) by (unfold qq; qc).
  set (y := (x * qz 1000000)%Qc) in *. rewrite Hh. rewrite E at 1. rewrite E at 1.
  replace (y * qq 1 1000000 - qq 1 2 * qq 1 1000000)%Qc with ((y - qq 1 2) * qq 1 1000000)%Qc by ring.
  replace (y * qq 1 1000000 + qq 1 2 * qq 1 1000000)%Qc with ((y + qq 1 2) * qq 1 1000000)%Qc by ring.
  split; apply Qcmult_le_compat_r; auto.
Qed.
Theorem C35_epoch_defined : forall us,
  (exists t, epoch_to_datetime (qq us 1000000) = Some t) <->
  (dt_diff (mkDt 1 1 1 0 0) epoch <= us <= dt_diff (mkDt 9999 12 31 (us_per_day - 1) 0) epoch).
Proof.
  intro us. unfold epoch_to_datetime. rewrite qq_qz, <- Qcmult_assoc, million, Qcmult_1_r, round_qz.
  unfold dt_add. set (total := _ + _ + us).
  assert (ET : total = 719163 * us_per_day + us) by reflexivity.
  assert (E1 : dt_diff (mkDt 1 1 1 0 0) epoch = - 719162 * us_per_day) by reflexivity.
  assert (E2 : dt_diff (mkDt 9999 12 31 (us_per_day - 1) 0) epoch = (3652059 - 719163) * us_per_day + us_per_day - 1) by (vm_compute; reflexivity).
  rewrite E1, E2. clear E1 E2. clearbody total. unfold us_per_day, MAXORDINAL in *.
  split.
  - intros [t H]. destruct (_ && _)%bool eqn:E; [|discriminate].
    apply andb_prop in E. destruct E as [A B]. apply Z.leb_le in A, B. Z.div_mod_to_equations. lia.
  - intro H. assert (A : 1 <= total / (86400 * 1000000) <= 3652059) by (Z.div_mod_to_equations; lia).
    destruct (Z.leb_spec 1 (total / (86400 * 1000000))); [|lia].
    destruct (Z.leb_spec (total / (86400 * 1000000)) 3652059); [|lia]. cbn [andb].
    destruct (ord2ymd _) as [[y m] d]. eauto.
Qed.

(** The epoch value does not depend on the zone in which the instant is written. *)
Theorem C35_zone_independent : forall t hours t', astimezone t (fixed_offset hours) = Some t' ->
  dt_offset t' = hours * 60 /\ valid_datetime t' /\ datetime_to_epoch t' = datetime_to_epoch t.
Proof.
  intros t hours t' H. unfold astimezone in H. destruct (dt_add t _) as [b|] eqn:E; [|discriminate].
  injection H as <-. apply dt_add_valid in E. destruct E as (V & D & O). split; [reflexivity|]. split; [exact V|].
  unfold datetime_to_epoch. f_equal. unfold dt_diff in *. cbn [dt_year dt_month dt_day dt_us dt_offset] in *. lia.
Qed.

(** Differences of epochs are elapsed seconds: two dates have equal epochs exactly
    if they are the same instant, a later civil date in one zone has a larger epoch. *)
Theorem C35_differences : forall a b,
  (datetime_to_epoch a - datetime_to_epoch b)%Qc = qq (dt_diff a b) 1000000 /\
  (datetime_to_epoch a = datetime_to_epoch b <-> dt_diff a b = 0).
Proof.
  intros a b. split; [apply epoch_sub|]. split; intro H.
  - apply qq_million_inj. rewrite <- epoch_sub, H. rewrite qq_qz, qz_0. ring.
  - assert (E : (datetime_to_epoch a - datetime_to_epoch b = 0)%Qc) by (rewrite epoch_sub, H; rewrite qq_qz, qz_0; ring). qc.
Qed.
Theorem C35_order : forall a b, valid_datetime a -> valid_datetime b -> dt_offset a = dt_offset b ->
  (date_lt (dt_year a, dt_month a, dt_day a) (dt_year b, dt_month b, dt_day b) \/
   ((dt_year a, dt_month a, dt_day a) = (dt_year b, dt_month b, dt_day b) /\ dt_us a < dt_us b)) ->
  (datetime_to_epoch a < datetime_to_epoch b)%Qc.
Proof.
  intros a b (Va & Ua) (Vb & Ub) O L.
  assert (D : 0 < dt_diff b a).
  { unfold dt_diff. rewrite O. destruct L as [L|[E L]].
    - destruct Va as (A1 & A2 & A3), Vb as (B1 & B2 & B3).
      pose proof (ymd2ord_lt _ _ _ _ _ _ A2 A3 B2 B3 L). unfold us_per_day in *. nia.
    - injection E as E1 E2 E3. rewrite E1, E2, E3. lia. }
  pose proof (epoch_sub b a) as E. rewrite qq_qz in E.
  assert (P : (0 < qz (dt_diff b a) * qq 1 1000000)%Qc).
  { apply qc_mult_pos; [rewrite <- qz_0; now apply qz_lt|unfold qq; qc]. }
  qc.
Qed.

(** Calendar days follow each other without gaps. *)
Theorem C35_calendar : forall o y m d, ord2ymd o = (y, m, d) <->
  (1 <= m <= 12 /\ 1 <= d <= days_in_month y m /\ ymd2ord y m d = o).
Proof.
  intros o y m d. split; [apply ord2ymd_spec|]. intros (M & D & <-). now apply ord2ymd_ymd2ord.
Qed.

(** Examples: 29 February 2000, 18:30 in UTC-8, is 1 March 2000, 02:30 UTC *)
Definition ex_dt : datetime := mkDt 2000 2 29 (66600 * 1000000) (fixed_offset (-8)).
Example ex_dt_valid : valid_datetime ex_dt.
Proof. repeat split; vm_compute; discriminate. Qed.
Example ex_dt_epoch : datetime_to_epoch ex_dt = qz 951877800.
Proof. apply qc_eq_iff. vm_compute. reflexivity. Qed.
Example ex_dt_utc : astimezone ex_dt (fixed_offset 0) = Some (mkDt 2000 3 1 (9000 * 1000000) 0).
Proof. vm_compute. reflexivity. Qed.
Example ex_dt_back : epoch_to_datetime (qz 951877800) = Some (mkDt 2000 3 1 (9000 * 1000000) 0).
Proof. vm_compute. reflexivity. Qed.
Example ex_dt_order : date_lt (1999, 12, 31) (2000, 1, 1).
Proof. simpl. lia. Qed.

Print Assumptions C35_datetime_round_trip.
Print Assumptions C35_epoch_round_trip.
Print Assumptions C35_epoch_rounding.
Print Assumptions C35_epoch_defined.
Print Assumptions C35_zone_independent.
Print Assumptions C35_differences.
Print Assumptions C35_order.
Print Assumptions C35_calendar.
