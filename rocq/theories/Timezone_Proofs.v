(** Lemmas about the calendar *)
From Verif Require Import Num Timezone_Model Timezone_Spec.
Open Scope Z_scope.

Ltac divs := repeat match goal with
  | |- context [?a / ?b] => let q := fresh "q" in let H := fresh in
      assert (H : b * (a / b) <= a < b * (a / b) + b) by (pose proof (Z.div_mod a b ltac:(lia)); pose proof (Z.mod_pos_bound a b ltac:(lia)); lia);
      set (q := a / b) in *; clearbody q
  end.

Lemma month_cases m : 1 <= m <= 12 -> m=1\/m=2\/m=3\/m=4\/m=5\/m=6\/m=7\/m=8\/m=9\/m=10\/m=11\/m=12.
Proof. lia. Qed.
Lemma dbm_step y m : 1 <= m < 12 -> days_before_month y (m + 1) = days_before_month y m + days_in_month y m.
Proof.
  intro H. unfold days_before_month, days_in_month.
  assert (m=1\/m=2\/m=3\/m=4\/m=5\/m=6\/m=7\/m=8\/m=9\/m=10\/m=11) as C by lia.
  repeat destruct C as [-> | C]; [..|subst]; destruct (is_leap y); reflexivity.
Qed.
Lemma year_length y : days_before_month y 12 + 31 = if is_leap y then 366 else 365.
Proof. unfold days_before_month. destruct (is_leap y); reflexivity. Qed.
Lemma dim_pos y m : 28 <= days_in_month y m <= 31.
Proof. unfold days_in_month. repeat match goal with |- context [if ?c then _ else _] => destruct c end; lia. Qed.
Lemma is_leap_quot y : is_leap y = true <-> y mod 4 = 0 /\ (y mod 100 <> 0 \/ y mod 400 = 0).
Proof.
  unfold is_leap. rewrite Bool.andb_true_iff, Bool.orb_true_iff, Bool.negb_true_iff, Z.eqb_eq, Z.eqb_neq, Z.eqb_eq. tauto.
Qed.
Lemma dby_step y : days_before_year (y + 1) = days_before_year y + (if is_leap y then 366 else 365).
Proof.
  unfold days_before_year. replace (y + 1 - 1) with y by lia.
  assert (L4 : y / 4 = (y - 1) / 4 + (if y mod 4 =? 0 then 1 else 0)).
  { destruct (Z.eqb_spec (y mod 4) 0); Z.div_mod_to_equations; lia. }
  assert (L100 : y / 100 = (y - 1) / 100 + (if y mod 100 =? 0 then 1 else 0)).
  { destruct (Z.eqb_spec (y mod 100) 0); Z.div_mod_to_equations; lia. }
  assert (L400 : y / 400 = (y - 1) / 400 + (if y mod 400 =? 0 then 1 else 0)).
  { destruct (Z.eqb_spec (y mod 400) 0); Z.div_mod_to_equations; lia. }
  rewrite L4, L100, L400. unfold is_leap.
  destruct (Z.eqb_spec (y mod 4) 0) as [A|A], (Z.eqb_spec (y mod 100) 0) as [B|B], (Z.eqb_spec (y mod 400) 0) as [C|C];
    cbn [andb orb negb]; try lia; exfalso; Z.div_mod_to_equations; lia.
Qed.
Lemma dby_mono y k : 0 <= k -> days_before_year y + 365 * k <= days_before_year (y + k).
Proof.
  intro H. pattern k. apply natlike_ind; auto; [replace (y + 0) with y by lia; lia|].
  intros x Hx IH. replace (y + Z.succ x) with ((y + x) + 1) by lia. rewrite dby_step.
  destruct (is_leap (y + x)); lia.
Qed.
Lemma dbm_mono y m1 m2 : 1 <= m1 -> m1 < m2 <= 12 -> days_before_month y m1 + days_in_month y m1 <= days_before_month y m2.
Proof.
  intros H1 H2. rewrite <- dbm_step by lia.
  assert (G : forall k, 0 <= k -> m1 + 1 + k <= 12 -> days_before_month y (m1 + 1) <= days_before_month y (m1 + 1 + k)).
  { intros k Hk. pattern k. apply natlike_ind; auto; [intros; replace (m1 + 1 + 0) with (m1 + 1) by lia; lia|].
    intros x Hx IH L. replace (m1 + 1 + Z.succ x) with ((m1 + 1 + x) + 1) by lia. rewrite (dbm_step y (m1 + 1 + x)) by lia.
    specialize (IH ltac:(lia)). pose proof (dim_pos y (m1 + 1 + x)). lia. }
  specialize (G (m2 - (m1 + 1)) ltac:(lia) ltac:(lia)). replace (m1 + 1 + (m2 - (m1 + 1))) with m2 in G by lia. exact G.
Qed.
Lemma dbm_nonneg y m : 1 <= m <= 12 -> 0 <= days_before_month y m.
Proof.
  intro H. unfold days_before_month. apply month_cases in H.
  repeat destruct H as [-> | H]; [..|subst]; destruct (is_leap y); cbv; discriminate.
Qed.
Lemma in_year y m d : 1 <= m <= 12 -> 1 <= d <= days_in_month y m ->
  1 <= days_before_month y m + d <= (if is_leap y then 366 else 365).
Proof.
  intros Hm Hd. pose proof (dbm_nonneg y m Hm). split; [lia|]. rewrite <- year_length.
  destruct (Z.eq_dec m 12) as [->|N].
  - replace (days_in_month y 12) with 31 in Hd by reflexivity. lia.
  - pose proof (dbm_mono y m 12 ltac:(lia) ltac:(lia)). lia.
Qed.
Lemma ymd2ord_lt y1 m1 d1 y2 m2 d2 :
  1 <= m1 <= 12 -> 1 <= d1 <= days_in_month y1 m1 -> 1 <= m2 <= 12 -> 1 <= d2 <= days_in_month y2 m2 ->
  date_lt (y1, m1, d1) (y2, m2, d2) -> ymd2ord y1 m1 d1 < ymd2ord y2 m2 d2.
Proof.
  intros M1 D1 M2 D2 L. unfold ymd2ord. destruct L as [L|[-> [L|[-> L]]]].
  - pose proof (in_year y1 m1 d1 M1 D1). pose proof (in_year y2 m2 d2 M2 D2).
    pose proof (dby_mono (y1 + 1) (y2 - (y1 + 1)) ltac:(lia)) as G.
    replace (y1 + 1 + (y2 - (y1 + 1))) with y2 in G by lia. rewrite dby_step in G. lia.
  - pose proof (dbm_mono y2 m1 m2 ltac:(lia) ltac:(lia)). lia.
  - lia.
Qed.
Lemma ymd2ord_inj y1 m1 d1 y2 m2 d2 :
  1 <= m1 <= 12 -> 1 <= d1 <= days_in_month y1 m1 -> 1 <= m2 <= 12 -> 1 <= d2 <= days_in_month y2 m2 ->
  ymd2ord y1 m1 d1 = ymd2ord y2 m2 d2 -> (y1, m1, d1) = (y2, m2, d2).
Proof.
  intros M1 D1 M2 D2 E.
  assert (C : date_lt (y1,m1,d1) (y2,m2,d2) \/ date_lt (y2,m2,d2) (y1,m1,d1) \/ (y1 = y2 /\ m1 = m2 /\ d1 = d2)) by (simpl; lia).
  destruct C as [C|[C|(-> & -> & ->)]]; auto.
  - pose proof (ymd2ord_lt _ _ _ _ _ _ M1 D1 M2 D2 C). lia.
  - pose proof (ymd2ord_lt _ _ _ _ _ _ M2 D2 M1 D1 C). lia.
Qed.

(** the month estimate *)
Lemma month_estimate y n : 0 <= n < (if is_leap y then 366 else 365) ->
  let month := (n + 50) / 32 in
  let preceding := days_before_month y month in
  (n < preceding -> 2 <= month <= 13 /\ (month <= 12) /\ days_before_month y (month - 1) <= n) /\
  (preceding <= n -> 1 <= month <= 12 /\ n < preceding + days_in_month y month).
Proof.
  intros H month preceding.
  assert (Hm : 1 <= month <= 12) by (unfold month; destruct (is_leap y); Z.div_mod_to_equations; lia).
  assert (Hn : 32 * month - 50 <= n < 32 * month - 18) by (unfold month; Z.div_mod_to_equations; lia).
  clearbody month. subst preceding. unfold days_before_month, days_in_month, dbm in *.
  apply month_cases in Hm. repeat destruct Hm as [-> | Hm]; [..|subst];
    cbn -[Z.add Z.sub Z.mul] in *; destruct (is_leap y); cbn in *; lia.
Qed.

Lemma leap_decomp a b c d : 0 <= b <= 3 -> 0 <= c <= 24 -> 0 <= d <= 3 ->
  is_leap (a * 400 + 1 + b * 100 + c * 4 + d) = true <-> d = 3 /\ (c <> 24 \/ b = 3).
Proof.
  intros Hb Hc Hd. rewrite is_leap_quot.
  set (y := a * 400 + 1 + b * 100 + c * 4 + d).
  assert (E400 : y mod 400 = (1 + b * 100 + c * 4 + d) mod 400).
  { unfold y. replace (a * 400 + 1 + b * 100 + c * 4 + d) with ((1 + b * 100 + c * 4 + d) + a * 400) by lia. apply Z.mod_add. lia. }
  assert (E100 : y mod 100 = (1 + c * 4 + d) mod 100).
  { unfold y. replace (a * 400 + 1 + b * 100 + c * 4 + d) with ((1 + c * 4 + d) + (a * 4 + b) * 100) by lia. apply Z.mod_add. lia. }
  assert (E4 : y mod 4 = (1 + d) mod 4).
  { unfold y. replace (a * 400 + 1 + b * 100 + c * 4 + d) with ((1 + d) + (a * 100 + b * 25 + c) * 4) by lia. apply Z.mod_add. lia. }
  rewrite E400, E100, E4. Z.div_mod_to_equations. lia.
Qed.
Lemma dby_decomp a b c d : 0 <= b <= 3 -> 0 <= c <= 24 -> 0 <= d <= 3 ->
  days_before_year (a * 400 + 1 + b * 100 + c * 4 + d) = a * 146097 + b * 36524 + c * 1461 + d * 365.
Proof.
  intros Hb Hc Hd. unfold days_before_year.
  replace (a * 400 + 1 + b * 100 + c * 4 + d - 1) with (a * 400 + b * 100 + c * 4 + d) by lia.
  assert (E4 : (a * 400 + b * 100 + c * 4 + d) / 4 = a * 100 + b * 25 + c) by (Z.div_mod_to_equations; lia).
  assert (E100 : (a * 400 + b * 100 + c * 4 + d) / 100 = a * 4 + b) by (Z.div_mod_to_equations; lia).
  assert (E400 : (a * 400 + b * 100 + c * 4 + d) / 400 = a) by (Z.div_mod_to_equations; lia).
  rewrite E4, E100, E400. lia.
Qed.

Lemma ord2ymd_spec o y m d : ord2ymd o = (y, m, d) ->
  1 <= m <= 12 /\ 1 <= d <= days_in_month y m /\ ymd2ord y m d = o.
Proof.
  unfold ord2ymd.
  set (n400 := (o - 1) / 146097). set (r1 := (o - 1) mod 146097).
  assert (R1 : o - 1 = 146097 * n400 + r1) by (apply Z.div_mod; lia).
  assert (B1 : 0 <= r1 < 146097) by (apply Z.mod_pos_bound; lia).
  set (n100 := r1 / 36524). set (r2 := r1 mod 36524).
  assert (R2 : r1 = 36524 * n100 + r2) by (apply Z.div_mod; lia).
  assert (B2 : 0 <= r2 < 36524) by (apply Z.mod_pos_bound; lia).
  set (n4 := r2 / 1461). set (r3 := r2 mod 1461).
  assert (R3 : r2 = 1461 * n4 + r3) by (apply Z.div_mod; lia).
  assert (B3 : 0 <= r3 < 1461) by (apply Z.mod_pos_bound; lia).
  set (n1 := r3 / 365). set (r4 := r3 mod 365).
  assert (R4 : r3 = 365 * n1 + r4) by (apply Z.div_mod; lia).
  assert (B4 : 0 <= r4 < 365) by (apply Z.mod_pos_bound; lia).
  clearbody n400 n100 n4 n1 r1 r2 r3 r4.
  assert (C100 : 0 <= n100 <= 4) by lia. assert (C4 : 0 <= n4 <= 24) by lia. assert (C1 : 0 <= n1 <= 4) by lia.
  destruct (Z.eqb_spec n1 4) as [E1|E1].
  - cbn [orb]. intro H. assert (n100 <= 3) by lia. assert (r4 = 0) by lia.
    assert (Hy : y = n400 * 400 + 1 + n100 * 100 + n4 * 4 + 3) by (inversion H; lia).
    assert (m = 12) by congruence. assert (d = 31) by congruence. clear H.
    rewrite Hy. subst m d n1. split; [lia|]. split; [unfold days_in_month; simpl; lia|].
    unfold ymd2ord. rewrite dby_decomp by lia.
    assert (L : is_leap (n400 * 400 + 1 + n100 * 100 + n4 * 4 + 3) = true) by (apply leap_decomp; lia).
    unfold days_before_month. rewrite L. replace (dbm 12) with 334 by reflexivity. cbn [Z.ltb andb Z.compare Pos.compare Pos.compare_cont]. lia.
  - destruct (Z.eqb_spec n100 4) as [E2|E2].
    + cbn [orb]. intro H. assert (r2 = 0) by lia. assert (n4 = 0) by lia. assert (n1 = 0) by lia.
      assert (Hy : y = n400 * 400 + 1 + 3 * 100 + 24 * 4 + 3) by (inversion H; lia).
      assert (m = 12) by congruence. assert (d = 31) by congruence. clear H.
      rewrite Hy. subst m d. split; [lia|]. split; [unfold days_in_month; simpl; lia|].
      unfold ymd2ord. rewrite dby_decomp by lia.
      assert (L : is_leap (n400 * 400 + 1 + 3 * 100 + 24 * 4 + 3) = true) by (apply leap_decomp; lia).
      unfold days_before_month. rewrite L. replace (dbm 12) with 334 by reflexivity. cbn [Z.ltb andb Z.compare Pos.compare Pos.compare_cont]. lia.
    + cbn [orb]. set (Y := n400 * 400 + 1 + n100 * 100 + n4 * 4 + n1).
      assert (DY : days_before_year Y = n400 * 146097 + n100 * 36524 + n4 * 1461 + n1 * 365) by (apply dby_decomp; lia).
      assert (RN : 0 <= r4 < if is_leap Y then 366 else 365) by (destruct (is_leap Y); lia).
      destruct (month_estimate Y r4 RN) as [ME1 ME2]. clearbody Y.
      set (mo := (r4 + 50) / 32) in *. clearbody mo.
      destruct (Z.ltb_spec r4 (days_before_month Y mo)) as [L|L]; intro H.
      * destruct (ME1 L) as (M1 & M2 & M3). assert (y = Y) by congruence. assert (m = mo - 1) by congruence.
        assert (Hd : d = r4 - (days_before_month Y mo - days_in_month Y (mo - 1)) + 1) by congruence. clear H. subst y m.
        pose proof (dbm_step Y (mo - 1) ltac:(lia)) as St. replace (mo - 1 + 1) with mo in St by lia.
        split; [lia|]. split; [lia|]. unfold ymd2ord. lia.
      * destruct (ME2 L) as (M1 & M2). assert (y = Y) by congruence. assert (m = mo) by congruence.
        assert (Hd : d = r4 - days_before_month Y mo + 1) by congruence. clear H. subst y m.
        split; [lia|]. split; [lia|]. unfold ymd2ord. lia.
Qed.
Lemma ord2ymd_ymd2ord y m d : 1 <= m <= 12 -> 1 <= d <= days_in_month y m -> ord2ymd (ymd2ord y m d) = (y, m, d).
Proof.
  intros Hm Hd. destruct (ord2ymd (ymd2ord y m d)) as [[y' m'] d'] eqn:E.
  apply ord2ymd_spec in E. destruct E as (E1 & E2 & E3). symmetry. apply ymd2ord_inj; auto.
Qed.

Lemma ord_range y m d : valid_date y m d -> 1 <= ymd2ord y m d <= MAXORDINAL.
Proof.
  intros (Hy & Hm & Hd). pose proof (in_year y m d Hm Hd).
  pose proof (dby_mono 1 (y - 1) ltac:(lia)) as G. replace (1 + (y - 1)) with y in G by lia.
  change (days_before_year 1) with 0 in G.
  split; [unfold ymd2ord; lia|].
  destruct (Z.eq_dec y 9999) as [->|N].
  - change (is_leap 9999) with false in *. unfold ymd2ord, MAXORDINAL. change (days_before_year 9999) with 3651694. lia.
  - pose proof (dby_mono (y + 1) (9999 - (y + 1)) ltac:(lia)) as G2. replace (y + 1 + (9999 - (y + 1))) with 9999 in G2 by lia.
    rewrite dby_step in G2. change (days_before_year 9999) with 3651694 in G2. unfold ymd2ord, MAXORDINAL. lia.
Qed.

(** adding an exact difference gives the date back *)
Lemma dt_add_diff a b : valid_datetime a -> dt_offset a = dt_offset b -> dt_add b (dt_diff a b) = Some a.
Proof.
  intros (V & U) O. unfold dt_add, dt_diff.
  set (oa := ymd2ord (dt_year a) (dt_month a) (dt_day a)). set (ob := ymd2ord (dt_year b) (dt_month b) (dt_day b)).
  replace (ob * us_per_day + dt_us b + ((oa - ob) * us_per_day + (dt_us a - dt_us b) - (dt_offset a - dt_offset b) * 60 * 1000000))
    with (dt_us a + oa * us_per_day) by lia.
  assert (P : us_per_day <> 0) by (unfold us_per_day; lia).
  rewrite Z.div_add by auto. rewrite Z.mod_add by auto. rewrite Z.div_small, Z.mod_small by auto.
  rewrite Z.add_0_l.
  pose proof (ord_range _ _ _ V) as [R1 R2]. fold oa in R1, R2.
  destruct (Z.leb_spec 1 oa); [|lia]. destruct (Z.leb_spec oa MAXORDINAL); [|lia]. cbn [andb].
  unfold oa. destruct V as (V1 & V2 & V3). rewrite ord2ymd_ymd2ord by auto. destruct a; simpl in *; congruence.
Qed.
Lemma dt_add_valid a us b : dt_add a us = Some b -> valid_datetime b /\ dt_diff b a = us /\ dt_offset b = dt_offset a.
Proof.
  unfold dt_add. set (total := ymd2ord _ _ _ * us_per_day + dt_us a + us).
  destruct ((1 <=? total / us_per_day) && (total / us_per_day <=? MAXORDINAL))%bool eqn:E; [|discriminate].
  apply andb_prop in E. destruct E as [E1 E2]. apply Z.leb_le in E1, E2.
  destruct (ord2ymd (total / us_per_day)) as [[y m] d] eqn:E. intro H. injection H as <-.
  apply ord2ymd_spec in E. destruct E as (M & D & O).
  assert (P : us_per_day > 0) by (unfold us_per_day; lia).
  pose proof (Z.div_mod total us_per_day ltac:(lia)) as DM. pose proof (Z.mod_pos_bound total us_per_day ltac:(lia)) as MB.
  pose proof (in_year y m d M D).
  assert (Y : 1 <= y <= 9999).
  { split.
    - destruct (Z_le_gt_dec 1 y); auto. exfalso.
      pose proof (dby_mono (y + 1) (1 - (y + 1)) ltac:(lia)) as G. replace (y + 1 + (1 - (y + 1))) with 1 in G by lia.
      rewrite dby_step in G. change (days_before_year 1) with 0 in G. unfold ymd2ord in O. lia.
    - destruct (Z_le_gt_dec y 9999); auto. exfalso.
      pose proof (dby_mono 10000 (y - 10000) ltac:(lia)) as G. replace (10000 + (y - 10000)) with y in G by lia.
      change (days_before_year 10000) with 3652059 in G. unfold ymd2ord, MAXORDINAL in *. lia. }
  split; [|split].
  - split; [split; [auto|split; auto]|simpl; lia].
  - unfold dt_diff. cbn [dt_year dt_month dt_day dt_us dt_offset]. rewrite O. unfold total in *. lia.
  - reflexivity.
Qed.

Lemma qfloor_qz z : qfloor (qz z) = z.
Proof. destruct (qfloor_spec (qz z)) as [A B]. apply (proj1 (qz_le _ _)) in A. rewrite <- qz_1, <- qz_add in B. apply (proj1 (qz_lt _ _)) in B. lia. Qed.
Lemma round_qz z : round_half_even (qz z) = z.
Proof.
  unfold round_half_even. rewrite qfloor_qz.
  destruct (Qcltb_spec (qz z - qz z)%Qc (qq 1 2)) as [|N]; auto. exfalso. apply N. unfold qq. qc.
Qed.
Lemma million : (qq 1 1000000 * qz 1000000)%Qc = 1%Qc.
Proof. apply qc_eq_iff. reflexivity. Qed.
Lemma qq_qz n d : qq n d = (qz n * qq 1 d)%Qc.
Proof. apply qc_eq_iff. unfold qq. rewrite this_mult, this_qz, !this_Q2Qc. unfold Qeq, Qmult, inject_Z. simpl. ring. Qed.

Lemma round_close x : (x - qq 1 2 <= qz (round_half_even x) /\ qz (round_half_even x) <= x + qq 1 2)%Qc.
Proof.
  unfold round_half_even. destruct (qfloor_spec x) as [A B]. set (h := qq 1 2).
  assert (Hh : (h + h = 1)%Qc) by (unfold h; apply qc_eq_iff; reflexivity).
  assert (Hp : (0 < h)%Qc) by (unfold h, qq; qc).
  destruct (Qcltb_spec (x - qz (qfloor x))%Qc h) as [C|C]; [split; qc|].
  destruct (Qcltb_spec h (x - qz (qfloor x))%Qc) as [D|D]; [rewrite qz_add, qz_1; split; qc|].
  destruct (Z.even _); [split; qc|rewrite qz_add, qz_1; split; qc].
Qed.
Lemma epoch_us t : (datetime_to_epoch t * qz 1000000)%Qc = qz (dt_diff t epoch).
Proof. unfold datetime_to_epoch. rewrite qq_qz, <- Qcmult_assoc, million. ring. Qed.
Lemma dt_diff_add a b c : dt_diff a c = dt_diff a b + dt_diff b c.
Proof. unfold dt_diff. lia. Qed.
Lemma dt_diff_anti a b : dt_diff a b = - dt_diff b a.
Proof. unfold dt_diff. lia. Qed.
Lemma epoch_sub a b : (datetime_to_epoch a - datetime_to_epoch b)%Qc = qq (dt_diff a b) 1000000.
Proof.
  unfold datetime_to_epoch. rewrite (dt_diff_add a b epoch).
  rewrite (qq_qz (dt_diff a b + _)), qz_add, !(qq_qz (dt_diff _ _)). ring.
Qed.
Lemma qq_million_inj a b : qq a 1000000 = qq b 1000000 -> a = b.
Proof.
  intro H. apply qz_inj. rewrite (qq_qz a), (qq_qz b) in H.
  apply (f_equal (fun x => (x * qz 1000000)%Qc)) in H. rewrite <- !Qcmult_assoc, million in H.
  rewrite !Qcmult_1_r in H. exact H.
Qed.
