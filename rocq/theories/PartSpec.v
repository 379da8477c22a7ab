(** What the TIMESTAMP, DATETIME and TIME functions mean.  Instants are nanoseconds. *)
From Coq Require Import Ascii String List ZArith Lia Bool.
From Verif Require Import DateSpec.
Import ListNotations.
Local Open Scope string_scope.
Open Scope Z_scope.

Definition day_length : Z := 86400000000000.
(** The parts of a clock and their length. *)
Definition clock_parts : list (string * Z) :=
  [("MICROSECOND", 1000); ("MILLISECOND", 1000000); ("SECOND", 1000000000);
   ("MINUTE", 60000000000); ("HOUR", 3600000000000)].

(** The latest instant not after t that satisfies P. *)
Definition latest (P : Z -> Prop) (t r : Z) : Prop :=
  P r /\ r <= t /\ forall x, P x -> x <= t -> x <= r.
(** Instants at which a unit of length u begins, in a zone off seconds east of UTC. *)
Definition begins (u off x : Z) : Prop := (x + off * 1000000000) mod u = 0.
(** Midnights, in such a zone, of the days that satisfy P. *)
Definition midnight (P : Z -> bool) (off x : Z) : Prop :=
  exists d, x + off * 1000000000 = d * day_length /\ P d = true.

(** Offsets of zones: less than a day. *)
Definition offset (off : Z) : Prop := -86400 < off < 86400.
(** Values SQL can hold have whole microseconds. *)
Definition micros (t : Z) : Prop := t mod 1000 = 0.
(** TIMESTAMP and DATETIME values: 0001-01-01 to 9999-12-31 *)
Definition instant_in_range (t : Z) : Prop := -719162 * day_length <= t < 2932897 * day_length.
(** The parts of a calendar and the days on which they begin. *)
Definition plain_part (part : string) (P : Z -> bool) : Prop :=
  (part = "DAY" /\ P = starts_day) \/ (part = "MONTH" /\ P = starts_month) \/
  (part = "QUARTER" /\ P = starts_quarter) \/ (part = "YEAR" /\ P = starts_year).
Definition date_part (part : string) (P : Z -> bool) : Prop :=
  plain_part part P \/ exists w, In (part, w) week_parts /\ P = starts_week w.
(** The time of day. *)
Definition time_of_day (w : Z) : Z := w mod day_length.
