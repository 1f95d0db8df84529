(** Calendar vocabulary *)
From Verif Require Import Num Timezone_Model.
Open Scope Z_scope.
Definition valid_date (y m d : Z) : Prop :=
  1 <= y <= 9999 /\ 1 <= m <= 12 /\ 1 <= d <= days_in_month y m.
Definition valid_datetime (t : datetime) : Prop :=
  valid_date (dt_year t) (dt_month t) (dt_day t) /\ 0 <= dt_us t < us_per_day.
(** chronological order of civil dates *)
Definition date_lt (a b : Z * Z * Z) : Prop :=
  let '(y1, m1, d1) := a in let '(y2, m2, d2) := b in
  y1 < y2 \/ (y1 = y2 /\ (m1 < m2 \/ (m1 = m2 /\ d1 < d2))).
