(** Instants of Go's time package in UTC (outside /repo): nanoseconds since
    1970-01-01 00:00:00.  DATETIME and TIME values are kept in UTC, so this is also
    their wall clock. *)
From Coq Require Import ZArith Lia Bool.
From Verif Require Import GoBase CalendarModel.
Open Scope Z_scope.

Definition ns_per_sec : Z := 1000000000.
Definition ns_per_day : Z := 86400 * ns_per_sec.

(** time.Date(y, m, d, h, mi, s, ns, time.UTC) *)
Definition go_time (y m d h mi s ns : Z) : Z :=
  (godate y m d * 86400 + h * 3600 + mi * 60 + s) * ns_per_sec + ns.

(** Time.Date, Clock and Nanosecond *)
Definition day_no (t : Z) : Z := t / ns_per_day.
Definition clock (t : Z) : Z := (t / ns_per_sec) mod 86400.
Definition hour (t : Z) : Z := clock t / 3600.
Definition minute (t : Z) : Z := clock t / 60 mod 60.
Definition second (t : Z) : Z := clock t mod 60.
Definition nanosecond (t : Z) : Z := t mod ns_per_sec.

(** Time.Unix, UnixMilli, UnixMicro: floor for Unix (the nanosecond part is never
    negative); the others are sums of the seconds and the nanosecond part. *)
Definition unix (t : Z) : Z := t / ns_per_sec.
Definition unix_milli (t : Z) : Z := unix t * 1000 + nanosecond t / 1000000.
Definition unix_micro (t : Z) : Z := unix t * 1000000 + nanosecond t / 1000.
(** time.Unix(sec, nsec) *)
Definition from_unix (s ns : Z) : Z := s * ns_per_sec + ns.
