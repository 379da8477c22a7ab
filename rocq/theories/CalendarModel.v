(** Go's proleptic Gregorian calendar (package time, outside /repo), as far as
    the date functions of /repo use it.  A date is a day number: days since
    1970-01-01 (Time.Unix()/86400 of its midnight UTC). *)
From Coq Require Import ZArith Lia Bool List.
From Verif Require Import GoBase.
Open Scope Z_scope.

Definition leap (y : Z) : bool :=
  (y mod 4 =? 0) && (negb (y mod 100 =? 0) || (y mod 400 =? 0)).

Definition days_in_month (y m : Z) : Z :=
  match m with
  | 1 => 31 | 2 => if leap y then 29 else 28 | 3 => 31 | 4 => 30 | 5 => 31 | 6 => 30
  | 7 => 31 | 8 => 31 | 9 => 30 | 10 => 31 | 11 => 30 | _ => 31
  end.

(** Days of the year before month m. *)
Definition days_before (y m : Z) : Z :=
  let l := if leap y then 1 else 0 in
  match m with
  | 1 => 0 | 2 => 31 | 3 => 59 + l | 4 => 90 + l | 5 => 120 + l | 6 => 151 + l
  | 7 => 181 + l | 8 => 212 + l | 9 => 243 + l | 10 => 273 + l | 11 => 304 + l | _ => 334 + l
  end.

(** Day number of January 1st. *)
Definition year_start (y : Z) : Z :=
  365 * (y - 1970) + ((y - 1) / 4 - 492) - ((y - 1) / 100 - 19) + ((y - 1) / 400 - 4).

(** Day number of a civil date with 1 <= m <= 12 (any d). *)
Definition days_of (y m d : Z) : Z := year_start y + days_before y m + (d - 1).

(** time.Date(y, m, d, 0, 0, 0, 0, time.UTC): months outside 1..12 carry into the
    year, days outside the month into the following or preceding months. *)
Definition godate (y m d : Z) : Z :=
  days_of (y + (m - 1) / 12) ((m - 1) mod 12 + 1) d.

(** Time.Date(): the civil date of a day number.  The year is estimated by the
    mean length of a year and corrected by at most one. *)
Definition year_of (n : Z) : Z :=
  let c := 400 * (n + 719162) / 146097 + 1 in
  if year_start (c + 1) <=? n then c + 1 else if n <? year_start c then c - 1 else c.
Definition month_of (y yday : Z) : Z :=
  let l := if leap y then 1 else 0 in
  if yday <? 31 then 1 else if yday <? 59 + l then 2 else if yday <? 90 + l then 3
  else if yday <? 120 + l then 4 else if yday <? 151 + l then 5 else if yday <? 181 + l then 6
  else if yday <? 212 + l then 7 else if yday <? 243 + l then 8 else if yday <? 273 + l then 9
  else if yday <? 304 + l then 10 else if yday <? 334 + l then 11 else 12.
Definition civil (n : Z) : Z * Z * Z :=
  let y := year_of n in
  let m := month_of y (n - year_start y) in
  (y, m, n - days_of y m 1 + 1).
Definition year (n : Z) : Z := fst (fst (civil n)).
Definition month (n : Z) : Z := snd (fst (civil n)).
Definition day (n : Z) : Z := snd (civil n).

(** Time.YearDay(), Time.Weekday() (Sunday = 0). *)
Definition yearday (n : Z) : Z := n - year_start (year n) + 1.
Definition weekday (n : Z) : Z := (n + 4) mod 7.

(** Time.ISOWeek(): the week's Thursday decides. *)
Definition thursday (n : Z) : Z := n + 3 - (n + 3) mod 7.
Definition iso_year (n : Z) : Z := year (thursday n).
Definition iso_week (n : Z) : Z := (yearday (thursday n) - 1) / 7 + 1.

(** Time.AddDate(y, m, d) on a midnight. *)
Definition add_date (n y m d : Z) : Z := godate (year n + y) (month n + m) (day n + d).
