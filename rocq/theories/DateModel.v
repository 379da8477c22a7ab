(** The DATE functions: internal/function_date.go, EXTRACT and the DATE literal.

    A DATE is a day number.  Every DATE argument of a function comes out of
    DecodeValue (internal/decoder.go, parseDate), so it is a midnight in UTC and
    its Unix() is 86400 times the day number.  A DATE result leaves through
    DateValue.ToString (internal/value.go), which prints the civil date of the
    value in the value's own location. *)
From Coq Require Import Ascii String List ZArith Lia Bool.
From Verif Require Import GoBase CalendarModel.
Import ListNotations.
Local Open Scope string_scope.
Open Scope Z_scope.

(** internal/function_date.go:291-301 addMonth *)
Definition add_month (n m : Z) : Z :=
  let first := godate (year n) (month n) 1 in
  let next := add_date first 0 m 0 in
  let after := godate (year next) (month next) (day n) in
  if negb (month next =? month after) then add_date first 0 (m + 1) (-1)
  else add_date n 0 m 0.

(** internal/function_date.go:303-313 addYear *)
Definition add_year (n y : Z) : Z :=
  let first := godate (year n) (month n) 1 in
  let next := add_date first y 0 0 in
  let after := godate (year next) (month next) (day n) in
  if negb (month next =? month after) then add_date first y 1 (-1)
  else add_date n y 0 0.

(** internal/function_date.go:59-73 DATE_ADD.  int64 arithmetic on the count
    wraps; the calendar itself is modelled on unbounded integers. *)
Definition date_add (n v : Z) (part : string) : res Z :=
  if String.eqb part "DAY" then Ok (add_date n 0 0 v)
  else if String.eqb part "WEEK" then Ok (add_date n 0 0 (wrap64 (v * 7)))
  else if String.eqb part "MONTH" then Ok (add_month n v)
  else if String.eqb part "YEAR" then Ok (add_year n v)
  else if String.eqb part "QUARTER" then Ok (add_month n 3)
  else Err.

(** internal/function_date.go:75-87 DATE_SUB *)
Definition date_sub (n v : Z) (part : string) : res Z :=
  if String.eqb part "DAY" then Ok (add_date n 0 0 (wrap64 (- v)))
  else if String.eqb part "WEEK" then Ok (add_date n 0 0 (wrap64 (wrap64 (- v) * 7)))
  else if String.eqb part "MONTH" then Ok (add_month n (wrap64 (- v)))
  else if String.eqb part "YEAR" then Ok (add_year n (wrap64 (- v)))
  else Err.

(** internal/function_date.go:89-97 WeekPartToOffset *)
Definition week_part (part : string) : option Z :=
  if String.eqb part "WEEK" then Some 0
  else if String.eqb part "WEEK_MONDAY" then Some 1
  else if String.eqb part "WEEK_TUESDAY" then Some 2
  else if String.eqb part "WEEK_WEDNESDAY" then Some 3
  else if String.eqb part "WEEK_THURSDAY" then Some 4
  else if String.eqb part "WEEK_FRIDAY" then Some 5
  else if String.eqb part "WEEK_SATURDAY" then Some 6
  else None.

(** internal/function_date.go:125-139: fullWeeks, plus the days start+1 .. start+remainder
    falling on the boundary weekday. *)
Fixpoint count_rem (startday boundary : Z) (remainder : nat) : Z :=
  match remainder with
  | O => 0
  | S r => (if (startday + Z.of_nat remainder) mod 7 =? boundary then 1 else 0) + count_rem startday boundary r
  end.
Definition diff_weeks (a b boundary : Z) : Z :=
  let neg := a <? b in
  let start := if neg then a else b in
  let stop := if neg then b else a in
  let days := Z.quot (Z.quot (Z.quot (86400 * stop - 86400 * start) 24) 60) 60 in
  let r := Z.quot days 7 + count_rem (weekday start) boundary (Z.to_nat (Z.rem days 7)) in
  if neg then - r else r.

(** Time.Sub: nanoseconds, saturating at the int64 limits. *)
Definition day_ns : Z := 86400000000000.
Definition time_sub (a b : Z) : Z :=
  Z.max (- two63) (Z.min (two63 - 1) ((a - b) * day_ns)).

(** internal/function_date.go:99-169 DATE_DIFF *)
Definition date_diff (a b : Z) (part : string) : res Z :=
  if has_prefix "WEEK" part then
    match week_part part with
    | None => Err
    | Some boundary => Ok (diff_weeks a b boundary)
    end
  else
    let diff := time_sub a b in
    if String.eqb part "DAY" then
      let dd := Z.quot diff day_ns in
      let md := Z.rem diff day_ns in
      Ok (if 0 <? md then dd + 1 else if md <? 0 then dd - 1 else dd)
    else if String.eqb part "ISOWEEK" then Ok ((year a - year b) * 48 + iso_week a - iso_week b)
    else if String.eqb part "MONTH" then Ok ((year a * 12 + month a) - (year b * 12 + month b))
    else if String.eqb part "YEAR" then Ok (year a - year b)
    else if String.eqb part "ISOYEAR" then Ok (iso_year a - iso_year b)
    else Err.

(** internal/function_date.go:178-188: step back until the weekday is reached; at
    most six steps (the loop terminates because every weekday recurs). *)
Fixpoint back_to (fuel : nat) (n w : Z) : Z :=
  if weekday n =? w then n
  else match fuel with O => n | S f => back_to f (add_date n 0 0 (-1)) w end.

(** internal/function_date.go:173-234 DATE_TRUNC.  time.Time{} is 0001-01-01. *)
Definition zero_time : Z := days_of 1 1 1.
Definition quarter_start_months : list Z := [1; 4; 7; 10].
Definition date_trunc (n : Z) (part : string) : res Z :=
  if has_prefix "WEEK" part then
    match week_part part with
    | None => Err
    | Some w => Ok (back_to 6 n w)
    end
  else if String.eqb part "DAY" then Ok (godate (year n) (month n) (day n))
  else if String.eqb part "ISOWEEK" then Ok (godate (iso_year n) 0 (7 * iso_week n))
  else if String.eqb part "MONTH" then Ok (add_date zero_time (year n - 1) (month n - 1) 0)
  else if String.eqb part "QUARTER" then
    Ok (godate (year n) (nth (Z.to_nat (Z.quot (month n - 1) 3)) quarter_start_months 0) 1)
  else if String.eqb part "YEAR" then Ok (add_date zero_time (year n - 1) 0 0)
  else if String.eqb part "ISOYEAR" then
    let first := godate (iso_year n) 1 1 in
    Ok (add_date first 0 0 (1 - weekday first))
  else Err.

(** internal/function_date.go:249-277 LAST_DAY *)
Definition last_day (n : Z) (part : string) : res Z :=
  if String.eqb part "YEAR" then Ok (godate (year n + 1) 1 0)
  else if String.eqb part "QUARTER" then Err
  else if String.eqb part "MONTH" then Ok (add_date n 0 1 (- day n))
  else if String.eqb part "WEEK" then Ok (add_date n 0 0 (6 - weekday n))
  else if String.eqb part "WEEK_MONDAY" then Ok (add_date n 0 0 (7 - weekday n))
  else if String.eqb part "WEEK_TUESDAY" then Ok (add_date n 0 0 (8 - weekday n))
  else if String.eqb part "WEEK_WEDNESDAY" then Ok (add_date n 0 0 (9 - weekday n))
  else if String.eqb part "WEEK_THURSDAY" then Ok (add_date n 0 0 (10 - weekday n))
  else if String.eqb part "WEEK_FRIDAY" then Ok (add_date n 0 0 (11 - weekday n))
  else if String.eqb part "WEEK_SATURDAY" then Ok (add_date n 0 0 (12 - weekday n))
  else if String.eqb part "ISOWEEK" then Ok (add_date n 0 0 (6 - weekday n))
  else if String.eqb part "ISOYEAR" then Ok (godate (year n + 1) 1 0)
  else Err.

(** internal/function_date.go:287-289 UNIX_DATE *)
Definition unix_date (n : Z) : Z := Z.quot (86400 * n) 86400.

(** The civil date, as a day number, that a Unix time has in a location whose
    offset at that time is [off] seconds; time.Unix gives the process's location. *)
Definition local_day (off sec : Z) : Z := (sec + off) / 86400.

(** internal/function_date.go:236-239 DATE_FROM_UNIX_DATE: the product is a
    time.Duration, an int64 number of nanoseconds. *)
Definition date_from_unix_date (off v : Z) : Z :=
  local_day off (Z.quot (wrap64 (wrap64 (v * 24) * 3600000000000)) 1000000000).

(** internal/encoder.go:227-230 dateValueFromLiteral *)
Definition date_literal (off days : Z) : Z :=
  local_day off (wrap64 (wrap64 (days * 24) * 3600)).

(** internal/function_date.go:22-36 DATE with three arguments *)
Definition date3 (y m d : Z) : Z := add_date zero_time (y - 1) (m - 1) (d - 1).

(** internal/function.go:420-506 EXTRACT, the DateValue parts. *)
Definition extract (n : Z) (part : string) : res Z :=
  if String.eqb part "ISOYEAR" then Ok (iso_year n)
  else if String.eqb part "YEAR" then Ok (year n)
  else if String.eqb part "MONTH" then Ok (month n)
  else if String.eqb part "ISOWEEK" then Ok (iso_week n)
  else if String.eqb part "WEEK" then Ok (iso_week (add_date n 0 0 (- weekday n)))
  else if String.eqb part "DAY" then Ok (day n)
  else if String.eqb part "DAYOFYEAR" then Ok (yearday n)
  else if String.eqb part "DAYOFWEEK" then Ok (weekday n + 1)
  else if String.eqb part "QUARTER" then
    let d := yearday n in
    Ok (if d <=? 91 then 1 else if d <=? 91 * 2 then 2 else if d <=? 91 * 3 then 3 else 4)
  else Err.
