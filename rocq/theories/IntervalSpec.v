(** What INTERVAL values mean: a number of months, of days and of nanoseconds. *)
From Coq Require Import Ascii String List ZArith Lia Bool.
From Verif Require Import IntervalModel.
Import ListNotations.
Local Open Scope string_scope.
Open Scope Z_scope.

Definition month_count (v : interval) : Z := 12 * years v + months v.
Definition clock_count (v : interval) : Z :=
  (hours v * 3600 + minutes v * 60 + seconds v) * 1000000000 + nanos v.
(** The length when a day has 24 hours, and when besides a month has 30 days. *)
Definition length24 (v : interval) : Z := days v * 86400000000000 + clock_count v.
Definition length30 (v : interval) : Z := month_count v * 30 * 86400000000000 + length24 v.
Definition under (b x : Z) : Prop := - b < x < b.

(** Parts and what one of them is: months, days, nanoseconds. *)
Definition part_size : list (string * (Z * Z * Z)) :=
  [("YEAR", (12, 0, 0)); ("QUARTER", (3, 0, 0)); ("MONTH", (1, 0, 0)); ("WEEK", (0, 7, 0)); ("DAY", (0, 1, 0));
   ("HOUR", (0, 0, 3600000000000)); ("MINUTE", (0, 0, 60000000000)); ("SECOND", (0, 0, 1000000000))].
Definition is_of_parts (n : Z) (size : Z * Z * Z) (v : interval) : Prop :=
  let '(m, d, ns) := size in month_count v = n * m /\ days v = n * d /\ clock_count v = n * ns.

(** Fields within the limits of BigQuery's intervals, 10000 years, each on its own.
    Minutes and seconds may exceed 59, as in INTERVAL 90 MINUTE. *)
Definition within (v : interval) : Prop :=
  Z.abs (years v) <= 10000 /\ Z.abs (months v) <= 120000 /\ Z.abs (days v) <= 3660000 /\
  Z.abs (hours v) <= 87840000 /\ Z.abs (minutes v) <= 2000000000 /\ Z.abs (seconds v) <= 2000000000.
(** Minutes carried from the seconds included. *)
Definition whole_minutes (v : interval) : Z := minutes v + Z.quot (seconds v) 60.
