(** INTERVAL values: internal/function_interval.go, and + and - of DATE, DATETIME and
    TIMESTAMP with an INTERVAL (internal/value.go).

    An interval is the seven int32 fields of bigquery.IntervalValue (outside /repo).  Its
    text (String and ParseInterval, outside /repo) is not modelled: the functions are those
    of the fields.  JUSTIFY_* update their argument in place and return it; the argument is
    freshly decoded for each call, so the model returns the new value. *)
From Coq Require Import Ascii String List ZArith Lia Bool.
From Verif Require Import GoBase CalendarModel InstantModel DateModel PartModel.
Local Open Scope string_scope.
Open Scope Z_scope.

Record interval := IV { years : Z; months : Z; days : Z; hours : Z; minutes : Z; seconds : Z; nanos : Z }.

(** function_interval.go:9-27 INTERVAL *)
Definition make_part (value : Z) (part : string) : res interval :=
  let v := wrap32 value in
  if String.eqb part "YEAR" then Ok (IV v 0 0 0 0 0 0)
  else if String.eqb part "MONTH" then Ok (IV 0 v 0 0 0 0 0)
  else if String.eqb part "DAY" then Ok (IV 0 0 v 0 0 0 0)
  else if String.eqb part "HOUR" then Ok (IV 0 0 0 v 0 0 0)
  else if String.eqb part "MINUTE" then Ok (IV 0 0 0 0 v 0 0)
  else if String.eqb part "SECOND" then Ok (IV 0 0 0 0 0 v 0)
  else if String.eqb part "NANOSECOND" then Ok (IV 0 0 0 0 0 0 v)
  else Err.

(** function_interval.go:29-40 MAKE_INTERVAL *)
Definition make_interval (y m d h mi s : Z) : res interval :=
  Ok (IV (wrap32 y) (wrap32 m) (wrap32 d) (wrap32 h) (wrap32 mi) (wrap32 s) 0).

(** The pair of statements "hi += lo / k; lo %= k" on int32 fields, done when lo is over
    k - 1 or under 1 - k.  [by_] is the number that is divided: lo, except for negative
    minutes (function_interval.go:72), where it is the hours. *)
Definition carry (k hi lo by_ : Z) : Z * Z :=
  if k - 1 <? lo then (wrap32 (hi + Z.quot lo k), Z.rem lo k)
  else if lo <? 1 - k then (wrap32 (hi + Z.quot by_ k), Z.rem lo k)
  else (hi, lo).

(** function_interval.go:42-58 JUSTIFY_DAYS *)
Definition justify_days (v : interval) : interval :=
  let '(m, d) := carry 30 (months v) (days v) (days v) in
  let '(y, m) := if 11 <? m then (wrap32 (years v + 1), wrap32 (m - 12))
                 else if m <? -11 then (wrap32 (years v - 1), wrap32 (m + 12))
                 else (years v, m) in
  IV y m d (hours v) (minutes v) (seconds v) (nanos v).

(** function_interval.go:60-83 JUSTIFY_HOURS *)
Definition justify_hours (v : interval) : interval :=
  let '(mi, s) := carry 60 (minutes v) (seconds v) (seconds v) in
  let '(h, mi) := carry 60 (hours v) mi (hours v) in
  let '(d, h) := carry 24 (days v) h h in
  IV (years v) (months v) d h mi s (nanos v).

(** function_interval.go:85-90 JUSTIFY_INTERVAL *)
Definition justify_interval (v : interval) : interval := justify_days (justify_hours v).

(** ** Adding to dates and times: one call of time.Date *)
Definition shift (sg : Z) (w : Z) (v : interval) : Z :=
  go_time (year (day_no w) + sg * years v) (month (day_no w) + sg * months v) (day (day_no w) + sg * days v)
    (hour w + sg * hours v) (minute w + sg * minutes v) (second w + sg * seconds v) (nanosecond w + sg * nanos v).
(** value.go:1631-1645 and 1648-1661 DatetimeValue.Add, Sub *)
Definition datetime_plus (w : Z) (v : interval) : Z := shift 1 w v.
Definition datetime_minus (w : Z) (v : interval) : Z := shift (-1) w v.
(** value.go:1468-1481 and 1488-1501 DateValue.Add, Sub; the result is a DATETIME *)
Definition date_plus (n : Z) (v : interval) : Z := shift 1 (n * ns_per_day) v.
Definition date_minus (n : Z) (v : interval) : Z := shift (-1) (n * ns_per_day) v.
(** value.go:1915-1929 and 1932-1946 TimestampValue.Add, Sub, in the local time of the
    process, which a decoded TIMESTAMP has *)
Definition timestamp_plus (local : loc) (t : Z) (v : interval) : Z := from_wall local (shift 1 (wall local t) v).
Definition timestamp_minus (local : loc) (t : Z) (v : interval) : Z := from_wall local (shift (-1) (wall local t) v).

(** value.go:1505-1514 DateValue.Sub of a date: the Duration between the midnights,
    divided by 24 hours *)
Definition date_minus_date (a b : Z) : interval :=
  IV 0 0 (wrap32 (Z.quot (span (a * ns_per_day) (b * ns_per_day)) day_ns)) 0 0 0 0.
