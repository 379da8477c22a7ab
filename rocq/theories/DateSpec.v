(** What the DATE functions mean, in terms of day numbers and of the days on
    which periods start. *)
From Coq Require Import Ascii String List ZArith Lia Bool.
From Verif Require Import CalendarModel.
Import ListNotations.
Open Scope Z_scope.

(** Days on which a new period starts. *)
Definition starts_day (n : Z) : bool := true.
Definition starts_week (w n : Z) : bool := weekday n =? w.
Definition starts_month (n : Z) : bool := day n =? 1.
Definition starts_quarter (n : Z) : bool := (day n =? 1) && ((month n - 1) mod 3 =? 0).
Definition starts_year (n : Z) : bool := (day n =? 1) && (month n =? 1).
(** ISO 8601: week 1 is the Monday-to-Sunday week that contains January 4th. *)
Definition starts_iso_year (n : Z) : bool :=
  (weekday n =? 1) &&
  (let jan4 := days_of (year (n + 6)) 1 4 in (n <=? jan4) && (jan4 <=? n + 6)).

(** The number of days d with [b < d <= b + k] on which a period starts, and the
    signed number between b and a. *)
Fixpoint starts_in (P : Z -> bool) (b : Z) (k : nat) : Z :=
  match k with
  | O => 0
  | S k' => (if P (b + Z.of_nat k) then 1 else 0) + starts_in P b k'
  end.
Definition boundaries (P : Z -> bool) (b a : Z) : Z :=
  if b <=? a then starts_in P b (Z.to_nat (a - b)) else - starts_in P a (Z.to_nat (b - a)).

(** First and last day of the period that contains n. *)
Definition first_day_of (P : Z -> bool) (n d : Z) : Prop :=
  P d = true /\ d <= n /\ forall e, d < e <= n -> P e = false.
Definition last_day_of (P : Z -> bool) (n d : Z) : Prop :=
  P (d + 1) = true /\ n <= d /\ forall e, n < e <= d -> P e = false.

(** The day k months later, clamped to the end of the month. *)
Definition months_later (n k r : Z) : Prop :=
  12 * year r + month r = 12 * year n + month n + k /\
  day r = Z.min (day n) (days_in_month (year r) (month r)).

(** Dates BigQuery accepts: 0001-01-01 to 9999-12-31. *)
Definition in_range (n : Z) : Prop := days_of 1 1 1 <= n <= days_of 9999 12 31.

(** The parts that are weeks and the weekday each starts on, Sunday being 0. *)
Definition week_parts : list (string * Z) :=
  ([("WEEK", 0); ("WEEK_MONDAY", 1); ("WEEK_TUESDAY", 2); ("WEEK_WEDNESDAY", 3);
   ("WEEK_THURSDAY", 4); ("WEEK_FRIDAY", 5); ("WEEK_SATURDAY", 6)])%string.
