(** Model of thetis/timezone.py on top of Python's proleptic Gregorian calendar
    (CPython's datetime: ymd2ord / ord2ymd, microsecond resolution). *)
From Verif Require Import Num.
Open Scope Z_scope.

Definition is_leap (y : Z) : bool := ((y mod 4 =? 0) && (negb (y mod 100 =? 0) || (y mod 400 =? 0)))%bool.
Definition days_in_month (y m : Z) : Z :=
  if m =? 2 then (if is_leap y then 29 else 28)
  else if ((m =? 4) || (m =? 6) || (m =? 9) || (m =? 11))%bool then 30 else 31.
(** days before month [m] in a common year *)
Definition dbm (m : Z) : Z :=
  if m =? 1 then 0 else
  if m =? 2 then 31 else
  if m =? 3 then 59 else
  if m =? 4 then 90 else
  if m =? 5 then 120 else
  if m =? 6 then 151 else
  if m =? 7 then 181 else
  if m =? 8 then 212 else
  if m =? 9 then 243 else
  if m =? 10 then 273 else
  if m =? 11 then 304 else
  if m =? 12 then 334 else 0.
Definition days_before_month (y m : Z) : Z := dbm m + (if ((2 <? m) && is_leap y)%bool then 1 else 0).
Definition days_before_year (y : Z) : Z := let p := y - 1 in p * 365 + p / 4 - p / 100 + p / 400.
(** datetime.date.toordinal *)
Definition ymd2ord (y m d : Z) : Z := days_before_year y + days_before_month y m + d.

(** datetime.date.fromordinal *)
Definition ord2ymd (ordinal : Z) : Z * Z * Z :=
  let o := ordinal - 1 in
  let n400 := o / 146097 in let n := o mod 146097 in
  let n100 := n / 36524 in let n := n mod 36524 in
  let n4 := n / 1461 in let n := n mod 1461 in
  let n1 := n / 365 in let n := n mod 365 in
  let year := n400 * 400 + 1 + n100 * 100 + n4 * 4 + n1 in
  if ((n1 =? 4) || (n100 =? 4))%bool then (year - 1, 12, 31)
  else
    let month := (n + 50) / 32 in
    let preceding := days_before_month year month in
    if n <? preceding then
      (year, month - 1, n - (preceding - days_in_month year (month - 1)) + 1)
    else (year, month, n - preceding + 1).

(** An aware datetime: civil date, time of day in microseconds, UTC offset in minutes.
    FixedTimeZone(offset hours), timezone.py:14-22, has offset 60 * hours. *)
Record datetime := mkDt { dt_year : Z; dt_month : Z; dt_day : Z; dt_us : Z; dt_offset : Z }.
Definition fixed_offset (hours : Z) : Z := hours * 60.
Definition us_per_day : Z := 86400 * 1000000.
(** difference of two aware datetimes, in microseconds *)
Definition dt_diff (a b : datetime) : Z :=
  (ymd2ord (dt_year a) (dt_month a) (dt_day a) - ymd2ord (dt_year b) (dt_month b) (dt_day b)) * us_per_day
  + (dt_us a - dt_us b) - (dt_offset a - dt_offset b) * 60 * 1000000.
(** datetime + timedelta(microseconds): same zone; [None]: OverflowError *)
Definition MINYEAR : Z := 1.
Definition MAXORDINAL : Z := 3652059.
Definition dt_add (a : datetime) (us : Z) : option datetime :=
  let total := ymd2ord (dt_year a) (dt_month a) (dt_day a) * us_per_day + dt_us a + us in
  let o := total / us_per_day in
  if ((1 <=? o) && (o <=? MAXORDINAL))%bool then
    let '(y, m, d) := ord2ymd o in Some (mkDt y m d (total mod us_per_day) (dt_offset a))
  else None.
(** astimezone: same instant, other offset *)
Definition astimezone (a : datetime) (offset : Z) : option datetime :=
  match dt_add a ((offset - dt_offset a) * 60 * 1000000) with
  | Some b => Some (mkDt (dt_year b) (dt_month b) (dt_day b) (dt_us b) offset)
  | None => None
  end.

(** timezone.py:7 *)
Definition epoch : datetime := mkDt 1970 1 1 0 0.
(** timezone.py:31-35; total_seconds() *)
Definition datetime_to_epoch (t : datetime) : Qc := qq (dt_diff t epoch) 1000000.
(** round half to even, as timedelta(seconds=float) does for microseconds *)
Definition round_half_even (x : Qc) : Z :=
  let f := qfloor x in
  let r := (x - qz f)%Qc in
  if Qcltb r (qq 1 2) then f else if Qcltb (qq 1 2) r then f + 1 else if Z.even f then f else f + 1.
(** timezone.py:38-42 *)
Definition epoch_to_datetime (t : Qc) : option datetime := dt_add epoch (round_half_even (t * qz 1000000)%Qc).
