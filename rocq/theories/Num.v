(** Exact numbers used where the model has to compute.

    Python floats are modelled by canonical rationals [Qc]: exact arithmetic,
    decidable comparisons and Leibniz equality.  Rounding is not modelled. *)
From Coq Require Export ZArith QArith Qcanon Qround Bool List Lia Lqa.
Export ListNotations.
Open Scope Qc_scope.

Definition Qcleb (x y : Qc) : bool := Qle_bool (this x) (this y).
Definition Qcltb (x y : Qc) : bool := negb (Qle_bool (this y) (this x)).
Definition Qceqb (x y : Qc) : bool := Qeq_bool (this x) (this y).
(** integer to number *)
Definition qz (z : Z) : Qc := Q2Qc (inject_Z z).
Definition qn (n : nat) : Qc := qz (Z.of_nat n).
(** [numpy.ceil] followed by [int] *)
Definition qceil (x : Qc) : Z := Qceiling (this x).
Definition qfloor (x : Qc) : Z := Qfloor (this x).
(** number from a fraction literal *)
Definition qq (n : Z) (d : positive) : Qc := Q2Qc (n # d).
Definition qmin (x y : Qc) : Qc := if Qcleb x y then x else y.
Definition qmax (x y : Qc) : Qc := if Qcleb x y then y else x.

Lemma qc_eq_iff (x y : Qc) : x = y <-> (this x == this y)%Q.
Proof. split; [intros ->; reflexivity | apply Qc_is_canon]. Qed.

Lemma this_plus x y : (this (x + y) == this x + this y)%Q.
Proof. apply Qred_correct. Qed.
Lemma this_mult x y : (this (x * y) == this x * this y)%Q.
Proof. apply Qred_correct. Qed.
Lemma this_opp x : (this (- x) == - this x)%Q.
Proof. apply Qred_correct. Qed.
Lemma this_minus x y : (this (x - y) == this x - this y)%Q.
Proof. unfold Qcminus; rewrite this_plus, this_opp; reflexivity. Qed.
Lemma this_inv x : (this (/ x) == / this x)%Q.
Proof. apply Qred_correct. Qed.
Lemma this_div x y : (this (x / y) == this x / this y)%Q.
Proof. unfold Qcdiv; rewrite this_mult, this_inv; reflexivity. Qed.
Lemma this_Q2Qc q : (this (Q2Qc q) == q)%Q.
Proof. apply Qred_correct. Qed.
Lemma this_qz z : (this (qz z) == inject_Z z)%Q.
Proof. apply Qred_correct. Qed.
Lemma this_0 : (this 0 == 0)%Q. Proof. reflexivity. Qed.
Lemma this_1 : (this 1 == 1)%Q. Proof. reflexivity. Qed.

Lemma Qcleb_spec x y : reflect (x <= y) (Qcleb x y).
Proof.
  unfold Qcleb, Qcle. destruct (Qle_bool (this x) (this y)) eqn:E; constructor.
  - now apply Qle_bool_iff. - intro H. apply Qle_bool_iff in H. congruence.
Qed.
Lemma Qcltb_spec x y : reflect (x < y) (Qcltb x y).
Proof.
  unfold Qcltb, Qclt. destruct (Qle_bool (this y) (this x)) eqn:E; simpl; constructor.
  - apply Qle_bool_iff in E. apply Qle_not_lt, E.
  - apply Qnot_le_lt. intro H. apply Qle_bool_iff in H. congruence.
Qed.
Lemma Qceqb_spec x y : reflect (x = y) (Qceqb x y).
Proof.
  unfold Qceqb. destruct (Qeq_bool (this x) (this y)) eqn:E; constructor.
  - apply Qc_is_canon. now apply Qeq_bool_iff.
  - intros ->. rewrite (proj2 (Qeq_bool_iff _ _) (Qeq_refl _)) in E. discriminate.
Qed.

Lemma qz_add a b : qz (a + b) = qz a + qz b.
Proof. apply qc_eq_iff. rewrite this_plus, !this_qz. now rewrite inject_Z_plus. Qed.
Lemma qz_mul a b : qz (a * b) = qz a * qz b.
Proof. apply qc_eq_iff. rewrite this_mult, !this_qz. now rewrite inject_Z_mult. Qed.
Lemma qz_opp a : qz (- a) = - qz a.
Proof. apply qc_eq_iff. rewrite this_opp, !this_qz. now rewrite inject_Z_opp. Qed.
Lemma qz_sub a b : qz (a - b) = qz a - qz b.
Proof. unfold Z.sub. rewrite qz_add, qz_opp. reflexivity. Qed.
Lemma qz_0 : qz 0 = 0. Proof. now apply qc_eq_iff. Qed.
Lemma qz_1 : qz 1 = 1. Proof. now apply qc_eq_iff. Qed.
Lemma qz_le a b : qz a <= qz b <-> (a <= b)%Z.
Proof. unfold Qcle. rewrite !this_qz. now rewrite Zle_Qle. Qed.
Lemma qz_lt a b : qz a < qz b <-> (a < b)%Z.
Proof. unfold Qclt. rewrite !this_qz. now rewrite Zlt_Qlt. Qed.
Lemma qz_inj a b : qz a = qz b -> a = b.
Proof. intro H. apply Z.le_antisymm; apply qz_le; rewrite H; apply Qcle_refl. Qed.
Lemma qn_0 : qn 0 = 0. Proof. apply qz_0. Qed.
Lemma qn_S n : qn (S n) = qn n + 1.
Proof. unfold qn. rewrite Nat2Z.inj_succ. unfold Z.succ. now rewrite qz_add, qz_1. Qed.
Lemma qn_add a b : qn (a + b) = qn a + qn b.
Proof. unfold qn. now rewrite Nat2Z.inj_add, qz_add. Qed.
Lemma qn_mul a b : qn (a * b) = qn a * qn b.
Proof. unfold qn. now rewrite Nat2Z.inj_mul, qz_mul. Qed.
Lemma qn_le a b : qn a <= qn b <-> (a <= b)%nat.
Proof. unfold qn. rewrite qz_le. lia. Qed.
Lemma qn_lt a b : qn a < qn b <-> (a < b)%nat.
Proof. unfold qn. rewrite qz_lt. lia. Qed.
Lemma qn_nonneg n : 0 <= qn n.
Proof. rewrite <- qn_0. apply qn_le. lia. Qed.
Lemma qceil_spec x : x <= qz (qceil x) /\ qz (qceil x) < x + 1.
Proof.
  unfold Qcle, Qclt. rewrite this_plus, !this_qz, this_1. split.
  - apply Qle_ceiling.
  - pose proof (Qceiling_lt (this x)) as H. unfold qceil.
    unfold Z.sub in H; rewrite inject_Z_plus in H. change (inject_Z (- (1))) with (-(1))%Q in H. lra.
Qed.
Lemma qfloor_spec x : qz (qfloor x) <= x /\ x < qz (qfloor x) + 1.
Proof.
  unfold Qcle, Qclt. rewrite this_plus, !this_qz, this_1. split.
  - apply Qfloor_le.
  - pose proof (Qlt_floor (this x)) as H. unfold qfloor.
    rewrite inject_Z_plus in H. change (inject_Z 1) with 1%Q in H. lra.
Qed.

(** [qc]: linear arithmetic over [Qc] (goal and hypotheses), by translation to [Q]. *)
Ltac qc_hyp H :=
  match type of H with
  | @eq Qc _ _ => apply -> qc_eq_iff in H
  | Qcle _ _ => unfold Qcle in H
  | Qclt _ _ => unfold Qclt in H
  | ~ (Qcle _ _) => apply Qcnot_le_lt in H; unfold Qclt in H
  | ~ (Qclt _ _) => apply Qcnot_lt_le in H; unfold Qcle in H
  end.
Ltac qc_push H :=
  repeat first [ setoid_rewrite this_plus in H | setoid_rewrite this_minus in H
               | setoid_rewrite this_mult in H | setoid_rewrite this_opp in H
               | setoid_rewrite this_Q2Qc in H | setoid_rewrite this_0 in H
               | setoid_rewrite this_1 in H ].
Ltac qc_pushg :=
  repeat first [ setoid_rewrite this_plus | setoid_rewrite this_minus
               | setoid_rewrite this_mult | setoid_rewrite this_opp
               | setoid_rewrite this_Q2Qc | setoid_rewrite this_0
               | setoid_rewrite this_1 ].
Ltac qc_goal :=
  match goal with
  | |- @eq Qc _ _ => apply qc_eq_iff
  | |- Qcle _ _ => unfold Qcle
  | |- Qclt _ _ => unfold Qclt
  | |- ~ (Qcle _ _) => apply Qclt_not_le; unfold Qclt
  | |- ~ (Qclt _ _) => apply Qcle_not_lt; unfold Qcle
  | |- False => idtac
  end.
Ltac qc_prep :=
  qc_goal;
  repeat match goal with
         | H : @eq Qc _ _ |- _ => qc_hyp H
         | H : Qcle _ _ |- _ => qc_hyp H
         | H : Qclt _ _ |- _ => qc_hyp H
         | H : ~ (Qcle _ _) |- _ => qc_hyp H
         | H : ~ (Qclt _ _) |- _ => qc_hyp H
         end;
  repeat match goal with
         | H : Qle _ _ |- _ => progress (qc_push H)
         | H : Qlt _ _ |- _ => progress (qc_push H)
         | H : Qeq _ _ |- _ => progress (qc_push H)
         end;
  qc_pushg.
Ltac qc := qc_prep; lra.
Ltac qcn := qc_prep; nra.

Lemma qc_mult_le x y a : 0 <= a -> x <= y -> a * x <= a * y.
Proof. intros Ha H. rewrite !(Qcmult_comm a). now apply Qcmult_le_compat_r. Qed.
Lemma qc_mult_lt x y a : 0 < a -> x < y -> a * x < a * y.
Proof. intros Ha H. rewrite !(Qcmult_comm a). now apply Qcmult_lt_compat_r. Qed.
Lemma qc_mult_nonneg x y : 0 <= x -> 0 <= y -> 0 <= x * y.
Proof. intros Hx Hy. qc_prep. nra. Qed.
Lemma qc_mult_pos x y : 0 < x -> 0 < y -> 0 < x * y.
Proof. intros Hx Hy. qc_prep. nra. Qed.
Lemma qc_pos_neq x : 0 < x -> x <> 0.
Proof. intros H E. subst. now apply Qclt_not_eq in H. Qed.
Lemma qc_inv_pos x : 0 < x -> 0 < / x.
Proof.
  intros H. unfold Qclt in *. rewrite this_inv, this_0. rewrite this_0 in H.
  now apply Qinv_lt_0_compat.
Qed.
Lemma qc_div_mul x y : y <> 0 -> x / y * y = x.
Proof. intros H. field. exact H. Qed.
Lemma qc_div_pos x y : 0 < x -> 0 < y -> 0 < x / y.
Proof. intros. unfold Qcdiv. apply qc_mult_pos; [assumption | now apply qc_inv_pos]. Qed.
Lemma qc_le_div x y z : 0 < z -> (x <= y / z <-> x * z <= y).
Proof.
  intros Hz. assert (Hn := qc_pos_neq _ Hz). split; intro H.
  - replace y with (y / z * z) by now field. apply Qcmult_le_compat_r; [assumption | now apply Qclt_le_weak].
  - replace x with (x * z / z) by now field. unfold Qcdiv.
    apply Qcmult_le_compat_r; [assumption | now apply Qclt_le_weak, qc_inv_pos].
Qed.
Lemma qc_lt_div x y z : 0 < z -> (x < y / z <-> x * z < y).
Proof.
  intros Hz. assert (Hn := qc_pos_neq _ Hz). split; intro H.
  - replace y with (y / z * z) by now field. now apply Qcmult_lt_compat_r.
  - replace x with (x * z / z) by now field. unfold Qcdiv.
    apply Qcmult_lt_compat_r; [now apply qc_inv_pos | assumption].
Qed.
Lemma qc_div_le x y z : 0 < z -> (y / z <= x <-> y <= x * z).
Proof.
  intros Hz. assert (Hn := qc_pos_neq _ Hz). split; intro H.
  - replace y with (y / z * z) by now field. apply Qcmult_le_compat_r; [assumption | now apply Qclt_le_weak].
  - replace x with (x * z / z) by now field. unfold Qcdiv.
    apply Qcmult_le_compat_r; [assumption | now apply Qclt_le_weak, qc_inv_pos].
Qed.
Lemma qc_div_lt x y z : 0 < z -> (y / z < x <-> y < x * z).
Proof.
  intros Hz. assert (Hn := qc_pos_neq _ Hz). split; intro H.
  - replace y with (y / z * z) by now field. now apply Qcmult_lt_compat_r.
  - replace x with (x * z / z) by now field. unfold Qcdiv.
    apply Qcmult_lt_compat_r; [now apply qc_inv_pos | assumption].
Qed.

