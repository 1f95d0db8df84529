From Verif Require Import Num TimeLoop_Model TimeLoop_Spec TimeLoop_Proofs TimeLoop_Proofs2.

(** *** C03 *)
Lemma qceil_pos x : 0 < x -> (1 <= qceil x)%Z.
Proof.
  intros H. destruct (qceil_spec x) as [H1 _].
  assert (0 < qz (qceil x)) by qc. rewrite <- qz_0 in H0. apply -> qz_lt in H0. lia.
Qed.

Lemma fit_step T r : 0 < T -> 0 < r ->
  let dt := T / qz (qceil (T / r)) in
  0 < dt /\ dt <= r /\ T = qz (qceil (T / r)) * dt /\ (1 <= qceil (T / r))%Z /\
  forall k, (1 <= k)%Z -> T / qz k <= r -> T / qz k <= dt.
Proof.
  intros HT Hr dt.
  assert (Hx : 0 < T / r) by now apply qc_div_pos.
  pose proof (qceil_pos _ Hx) as Hm. destruct (qceil_spec (T / r)) as [H1 H2].
  set (m := qceil (T / r)) in *.
  assert (Hmp : 0 < qz m) by (rewrite <- qz_0; apply qz_lt; lia).
  assert (Hmn := qc_pos_neq _ Hmp).
  split; [now apply qc_div_pos|]. split.
  { unfold dt. apply qc_div_le; [assumption|]. apply qc_div_le in H1; [|assumption].
    rewrite Qcmult_comm. exact H1. }
  split; [unfold dt; field; assumption|]. split; [assumption|].
  intros k Hk Hkr.
  assert (Hkp : 0 < qz k) by (rewrite <- qz_0; apply qz_lt; lia).
  apply qc_div_le in Hkr; [|assumption].
  assert (Hmk : (m <= k)%Z).
  { assert (T / r <= qz k) by (apply qc_div_le; [assumption|]; rewrite Qcmult_comm; exact Hkr).
    assert (qz m < qz k + 1) by qc. rewrite <- qz_1, <- qz_add in H0. apply -> qz_lt in H0. lia. }
  unfold dt. apply qc_div_le; [assumption|].
  replace (T / qz m * qz k) with (T * (qz k / qz m)) by (field; assumption).
  assert (1 <= qz k / qz m) by (apply qc_le_div; [assumption|]; rewrite Qcmult_1_l; now apply qz_le).
  rewrite <- (Qcmult_1_r T) at 1. apply qc_mult_le; [now apply Qclt_le_weak|assumption].
Qed.

(** *** C05 *)
Lemma Ok_inj {A} (a b : A) : Ok a = Ok b -> a = b.
Proof. intros H. now inversion H. Qed.

Lemma resolve_dates o t0 a b :
  o_initial_date o = Some a -> o_end_date o = Some b ->
  resolve_end_time o t0 =
    if Qcltb (a + qz 86400 * t0) b then
      if Qcltb 0 (b - a - qz 86399 * t0) then Ok (b - a - qz 86399 * t0) else Err TraitError_end_time
    else Err AssertionError_end_date.
Proof.
  intros Ha Hb. unfold resolve_end_time, timedelta_positional. rewrite Ha, Hb.
  destruct (Qcltb _ b); [|reflexivity].
  replace (b - (a + qz 86400 * t0) + t0) with (b - a - qz 86399 * t0); [reflexivity|].
  replace (qz 86400) with (qz 86399 + 1) by (rewrite <- qz_1, <- qz_add; reflexivity). ring.
Qed.

Lemma end_date_iff o t0 a b :
  o_initial_date o = Some a -> o_end_date o = Some b -> a < b ->
  (resolve_end_time o t0 = Ok (b - a) <-> t0 = 0).
Proof.
  intros Ha Hb Hab. rewrite (resolve_dates o t0 a b Ha Hb). split.
  - destruct (Qcltb_spec (a + qz 86400 * t0) b); [|discriminate].
    destruct (Qcltb 0 _); [|discriminate]. intros H. apply Ok_inj in H.
    assert (Hz : qz 86399 * t0 = 0) by qc.
    apply Qcmult_integral in Hz. destruct Hz as [Hz|Hz]; [|assumption].
    rewrite <- qz_0 in Hz. apply qz_inj in Hz. discriminate.
  - intros ->.
    replace (a + qz 86400 * 0) with a by ring. replace (b - a - qz 86399 * 0) with (b - a) by ring.
    destruct (Qcltb_spec a b); [|contradiction].
    destruct (Qcltb_spec 0 (b - a)) as [|H]; [reflexivity|]. exfalso. apply H. qc.
Qed.
