(** TIMESTAMP, DATETIME and TIME functions: internal/function_timestamp.go,
    internal/function_datetime.go, internal/function_time.go, the clock parts of EXTRACT
    (internal/function.go:442-503) and time zones (internal/util.go).

    A TIMESTAMP is an instant in nanoseconds since 1970-01-01 UTC, a DATETIME its wall
    clock written as the instant that has it in UTC, and a TIME the same on any day.  A
    DATETIME or TIME argument comes out of its text (decoder.go:64-75), in UTC; a
    TIMESTAMP argument is the local time of the process (decoder.go:76-84, time.Unix).  A
    DATETIME, TIME or DATE result leaves as the text of its wall clock (encoder.go). *)
From Coq Require Import Ascii String List ZArith Lia Bool.
From Verif Require Import GoBase CalendarModel InstantModel DateModel.
Import ListNotations.
Local Open Scope string_scope.
Open Scope Z_scope.

(** ** Locations of Go's time package (outside /repo)
    The offset in seconds east of UTC at each Unix second. *)
Definition loc := Z -> Z.
Definition fixed (off : Z) : loc := fun _ => off.
Definition utc : loc := fixed 0.
(** Time.In followed by the field accessors *)
Definition wall (l : loc) (t : Z) : Z := t + l (unix t) * ns_per_sec.
(** time.Date in a location: the offset in force at the wall clock read as UTC is tried
    first, then the one in force at the instant that gives. *)
Definition from_wall (l : loc) (w : Z) : Z :=
  w - l (unix w - l (unix w)) * ns_per_sec.

(** time.Duration(v) * unit: int64 nanoseconds *)
Definition micro : Z := 1000.
Definition milli : Z := 1000000.
Definition sec : Z := 1000000000.
Definition min_ : Z := 60 * sec.
Definition hour_ : Z := 3600 * sec.
Definition unit_of (part : string) : option Z :=
  if String.eqb part "MICROSECOND" then Some micro
  else if String.eqb part "MILLISECOND" then Some milli
  else if String.eqb part "SECOND" then Some sec
  else if String.eqb part "MINUTE" then Some min_
  else if String.eqb part "HOUR" then Some hour_
  else None.
Definition dur (v unit : Z) : Z := wrap64 (v * unit).
Definition neg_dur (v unit : Z) : Z := wrap64 (wrap64 (- v) * unit).
(** Time.Sub: saturates at the limits of a Duration *)
Definition span (a b : Z) : Z := Z.max (- two63) (Z.min (two63 - 1) (a - b)).

(** A date and the time of day of w: time.Date with Hour, Minute, Second and
    Nanosecond of w. *)
Definition at_clock (d w : Z) : Z := d * ns_per_day + w mod ns_per_day.

(** ** Truncation *)
(** function_date.go:173-234 DATE_TRUNC on a wall clock: the WEEK parts step back by
    AddDate, which keeps the time of day; the other parts build a midnight. *)
Definition date_trunc_at (w : Z) (part : string) : res Z :=
  bind (date_trunc (day_no w) part) (fun d =>
  Ok (if has_prefix "WEEK" part then at_clock d w else d * ns_per_day)).

Definition datetime (y m d h mi s ns : Z) : Z := go_time y m d h mi s ns.
Definition with_clock (w h mi s ns : Z) : Z :=
  datetime (year (day_no w)) (month (day_no w)) (day (day_no w)) h mi s ns.

(** function_datetime.go:202-274.  time.Duration(t.Second()) is a number of
    nanoseconds, divided by a microsecond or by a second. *)
Definition datetime_trunc (w : Z) (part : string) : res Z :=
  if String.eqb part "MICROSECOND" then Ok w
  else if String.eqb part "MILLISECOND" then
    Ok (with_clock w (hour w) (minute w) (second w - Z.quot (second w) micro) 0)
  else if String.eqb part "SECOND" then
    Ok (with_clock w (hour w) (minute w) (Z.quot (second w) sec) 0)
  else if String.eqb part "MINUTE" then Ok (with_clock w (hour w) (minute w) 0 0)
  else if String.eqb part "HOUR" then Ok (with_clock w (hour w) 0 0 0)
  else date_trunc_at w part.

(** function_time.go:117-170; the same cases without the date parts *)
Definition time_trunc (w : Z) (part : string) : res Z :=
  if String.eqb part "MICROSECOND" then Ok w
  else if String.eqb part "MILLISECOND" then
    Ok (with_clock w (hour w) (minute w) (second w - Z.quot (second w) micro) 0)
  else if String.eqb part "SECOND" then
    Ok (with_clock w (hour w) (minute w) (Z.quot (second w) sec) 0)
  else if String.eqb part "MINUTE" then Ok (with_clock w (hour w) (minute w) 0 0)
  else if String.eqb part "HOUR" then Ok (with_clock w (hour w) 0 0 0)
  else Err.

(** function_timestamp.go:117-192 *)
Definition timestamp_trunc (l : loc) (t : Z) (part : string) : res Z :=
  let w := wall l t in
  if String.eqb part "MICROSECOND" then Ok t
  else if String.eqb part "MILLISECOND" then
    Ok (from_wall l (with_clock w (hour w) (minute w) (second w) (Z.quot (nanosecond w) milli * milli)))
  else if String.eqb part "SECOND" then Ok (from_wall l (with_clock w (hour w) (minute w) (second w) 0))
  else if String.eqb part "MINUTE" then Ok (from_wall l (with_clock w (hour w) (minute w) 0 0))
  else if String.eqb part "HOUR" then Ok (from_wall l (with_clock w (hour w) 0 0 0))
  else bind (date_trunc_at w part) (fun d => Ok (from_wall l (with_clock d 0 0 0 0))).

(** ** Adding and subtracting *)
(** function_timestamp.go:58-92; DAY is AddDate in the local time of the process *)
Definition timestamp_add (local : loc) (t v : Z) (part : string) : res Z :=
  match unit_of part with
  | Some u => Ok (t + dur v u)
  | None => if String.eqb part "DAY" then Ok (from_wall local (wall local t + v * ns_per_day)) else Err
  end.
Definition timestamp_sub (local : loc) (t v : Z) (part : string) : res Z :=
  match unit_of part with
  | Some u => Ok (t + neg_dur v u)
  | None => if String.eqb part "DAY" then Ok (from_wall local (wall local t + wrap64 (- v) * ns_per_day)) else Err
  end.
(** function_datetime.go:107-176 *)
Definition datetime_add (w v : Z) (part : string) : res Z :=
  match unit_of part with
  | Some u => Ok (w + dur v u)
  | None => bind (date_add (day_no w) v part) (fun d => Ok (at_clock d w))
  end.
Definition datetime_sub (w v : Z) (part : string) : res Z :=
  match unit_of part with
  | Some u => Ok (w + neg_dur v u)
  | None => bind (date_sub (day_no w) v part) (fun d => Ok (at_clock d w))
  end.
(** function_time.go:66-98 *)
Definition time_add (w v : Z) (part : string) : res Z :=
  match unit_of part with Some u => Ok (w + dur v u) | None => Err end.
Definition time_subtract (w v : Z) (part : string) : res Z :=
  match unit_of part with Some u => Ok (w + neg_dur v u) | None => Err end.

(** ** Differences *)
(** function_date.go:99-169 with the part DAY on two instants; the other date parts are
    those of DATE_DIFF on the days when the clocks are equal, and are not modelled for
    instants. *)
Definition diff_day_ns : Z := 24 * hour_.
Definition date_diff_day (a b : Z) : Z :=
  let diff := span a b in
  let dd := Z.quot diff diff_day_ns in
  let md := Z.rem diff diff_day_ns in
  if 0 <? md then dd + 1 else if md <? 0 then dd - 1 else dd.
(** function_timestamp.go:94-115, function_datetime.go:178-200 *)
Definition instant_diff (a b : Z) (part : string) : res Z :=
  match unit_of part with
  | Some u => Ok (Z.quot (span a b) u)
  | None => if String.eqb part "DAY" then Ok (date_diff_day a b) else Err
  end.
(** function_time.go:100-115 *)
Definition time_diff (a b : Z) (part : string) : res Z :=
  match unit_of part with Some u => Ok (Z.quot (span a b) u) | None => Err end.

(** ** Unix numbers: function_timestamp.go:231-252 *)
(** time.UnixMicro(usec) = Unix(usec/1e6, (usec%1e6)*1e3) *)
Definition unix_micro_time (us : Z) : Z :=
  from_unix (Z.quot us 1000000) (Z.rem us 1000000 * 1000).
Definition timestamp_seconds (n : Z) : Z := from_unix n 0.
Definition timestamp_millis (n : Z) : Z := unix_micro_time (wrap64 (n * 1000)).
Definition timestamp_micros (n : Z) : Z := unix_micro_time n.
Definition unix_seconds (t : Z) : Z := unix t.
Definition unix_millis (t : Z) : Z := unix_milli t.
Definition unix_micros (t : Z) : Z := unix_micro t.

(** ** Conversions and construction *)
(** function_date.go:37-56, function_datetime.go:63-105, function_time.go:36-64: without
    a zone the TIMESTAMP keeps the location it was decoded with. *)
Definition date_of_ts (local : loc) (zone : option loc) (t : Z) : Z :=
  day_no (wall (match zone with Some l => l | None => local end) t).
Definition datetime_of_ts (local : loc) (zone : option loc) (t : Z) : Z :=
  wall (match zone with Some l => l | None => local end) t.
Definition time_of_ts (local : loc) (zone : option loc) (t : Z) : Z :=
  wall (match zone with Some l => l | None => local end) t.
(** function_datetime.go:63-85 DATETIME(date, time) *)
Definition datetime_of_date_time (d w : Z) : Z := at_clock d w.
(** function_datetime.go:21-60 and function_time.go:22-40: no range checks *)
Definition datetime6 (y m d h mi s : Z) : res Z := Ok (datetime y m d h mi s 0).
Definition time3 (h mi s : Z) : res Z := Ok (datetime 0 0 0 h mi s 0).
(** function_timestamp.go:28-56 TIMESTAMP(date or datetime, zone), with modifyTimeZone
    (util.go:76-80): the wall clock is printed and read again in the location. *)
Definition timestamp_of_datetime (l : loc) (w : Z) : Z := from_wall l w.

(** function.go:420-506 EXTRACT, the clock parts, from a wall clock; EXTRACT from a
    TIMESTAMP first takes the wall clock in the zone, UTC by default. *)
Definition extract_clock (w : Z) (part : string) : res Z :=
  if String.eqb part "HOUR" then Ok (hour w)
  else if String.eqb part "MINUTE" then Ok (minute w)
  else if String.eqb part "SECOND" then Ok (second w)
  else if String.eqb part "MILLISECOND" then Ok (Z.quot (nanosecond w) milli)
  else if String.eqb part "MICROSECOND" then Ok (Z.quot (nanosecond w) micro)
  else extract (day_no w) part.
Definition extract_ts (zone : option loc) (t : Z) (part : string) : res Z :=
  extract_clock (wall (match zone with Some l => l | None => utc end) t) part.
