(** The text of DATE, TIME and DATETIME values and its reading: internal/value.go and
    the parts of Go's time package it calls (Time.Format and time.Parse with the layouts
    "2006-01-02", "15:04:05.999999", "2006-01-02T15:04:05.999999" and
    "2006-01-02 15:04:05.999999").

    A DATE is a day number and a TIME or DATETIME an instant in nanoseconds.  Years
    before 0 or after 9999, which Format prints with a sign or five digits, are printed
    here with [pad], which is exact for years 0 to 9999 only. *)
From Coq Require Import Ascii String List ZArith Lia Bool.
From Verif Require Import GoBase CalendarModel InstantModel DecModel.
Import ListNotations.
Local Open Scope string_scope.
Open Scope Z_scope.

(** ** Printing *)
(** time/format.go formatNano with std = stdFracSecond9: drop trailing zeros. *)
Fixpoint strip_zeros (s : string) : string :=
  match s with
  | EmptyString => EmptyString
  | String c r =>
      match strip_zeros r with
      | EmptyString => if Ascii.eqb c "0" then EmptyString else String c EmptyString
      | r' => String c r'
      end
  end.
(** ".999999": six digits at most, nothing at all when they are all zero. *)
Definition frac_text (ns : Z) : string :=
  match strip_zeros (pad 6 (ns / 1000)) with EmptyString => EmptyString | s => String "." s end.
(** internal/value.go:1570-1572 DateValue.ToString *)
Definition date_text (n : Z) : string := pad 4 (year n) ++ "-" ++ pad 2 (month n) ++ "-" ++ pad 2 (day n).
(** internal/value.go:1838-1840 TimeValue.ToString *)
Definition clock_text (t : Z) : string :=
  pad 2 (hour t) ++ ":" ++ pad 2 (minute t) ++ ":" ++ pad 2 (second t) ++ frac_text (nanosecond t).
(** internal/value.go:1626, 1722-1724 DatetimeValue.ToString *)
Definition datetime_text (t : Z) : string := date_text (day_no t) ++ "T" ++ clock_text t.

(** ** Reading *)
(** time/format.go isDigit, getnum with fixed = true, and the four digits of a year. *)
Definition num2 (s : string) : option (Z * string) :=
  match s with
  | String a (String b r) =>
      match digit_val a, digit_val b with Some x, Some y => Some (10 * x + y, r) | _, _ => None end
  | _ => None
  end.
Definition num4 (s : string) : option (Z * string) :=
  match num2 s with
  | Some (a, r) => match num2 r with Some (b, r') => Some (100 * a + b, r') | None => None end
  | None => None
  end.
(** getnum with fixed = false: one or two digits *)
Definition num12 (s : string) : option (Z * string) :=
  match num2 s with
  | Some p => Some p
  | None => match s with
            | String a r => match digit_val a with Some x => Some (x, r) | None => None end
            | EmptyString => None
            end
  end.
(** time/format.go skip: a literal character of the layout; a space stands for one or
    more spaces *)
Definition lit (c : ascii) (s : string) : option string :=
  match s with String x r => if Ascii.eqb x c then Some r else None | EmptyString => None end.
Fixpoint cut_space (s : string) : string :=
  match s with String " " r => cut_space r | _ => s end.
Definition skip_space (s : string) : option string :=
  match s with
  | EmptyString => Some EmptyString
  | String " " _ => Some (cut_space s)
  | _ => None
  end.
(** The longest prefix of digits. *)
Fixpoint span_digits (s : string) : string * string :=
  match s with
  | String c r => match digit_val c with Some _ => let (a, b) := span_digits r in (String c a, b) | None => (EmptyString, s) end
  | EmptyString => (EmptyString, EmptyString)
  end.
(** time/format.go parseNanoseconds: at most nine digits count *)
Definition nanos (ds : string) : Z :=
  let d := substring 0 9 ds in
  match read_digits d 0 with Some v => v * 10 ^ (9 - Z.of_nat (String.length d)) | None => 0 end.
(** time.Parse, case stdFracSecond9: an optional "." or "," followed by digits *)
Definition frac (s : string) : Z * string :=
  match s with
  | String c r =>
      if Ascii.eqb c "." || Ascii.eqb c ","
      then let (ds, rest) := span_digits r in
           match ds with EmptyString => (0, s) | _ => (nanos ds, rest) end
      else (0, s)
  | EmptyString => (0, s)
  end.
Definition between (a b z : Z) : bool := (a <=? z) && (z <=? b).
(** The year, month and day of a layout, with the range checks of time.Parse (the one of
    the day comes last there; the order does not matter for success). *)
Definition read_ymd (s : string) : option (Z * string) :=
  match num4 s with Some (y, s1) =>
  match lit "-" s1 with Some s2 =>
  match num2 s2 with Some (m, s3) =>
  match lit "-" s3 with Some s4 =>
  match num2 s4 with Some (d, s5) =>
    if between 1 12 m && between 1 (days_in_month y m) d then Some (godate y m d, s5) else None
  | None => None end | None => None end | None => None end | None => None end | None => None end.
(** The hour, minute, second and fraction: seconds of the day and nanoseconds. *)
Definition read_hms (s : string) : option (Z * Z * string) :=
  match num12 s with Some (h, s1) =>
  match lit ":" s1 with Some s2 =>
  match num2 s2 with Some (mi, s3) =>
  match lit ":" s3 with Some s4 =>
  match num2 s4 with Some (sc, s5) =>
    let (ns, s6) := frac s5 in
    if between 0 23 h && between 0 59 mi && between 0 59 sc then Some (h * 3600 + mi * 60 + sc, ns, s6) else None
  | None => None end | None => None end | None => None end | None => None end | None => None end.
Definition is_end (s : string) : bool := match s with EmptyString => true | _ => false end.

(** internal/value.go:2362-2364 parseDate.  [None] is an error. *)
Definition parse_date (s : string) : option Z :=
  match read_ymd s with Some (n, r) => if is_end r then Some n else None | None => None end.
(** internal/value.go:2373-2375 parseTime; the date is 1 January of year 0. *)
Definition parse_time (s : string) : option Z :=
  match read_hms s with
  | Some (c, ns, r) => if is_end r then Some ((godate 0 1 1 * 86400 + c) * ns_per_sec + ns) else None
  | None => None
  end.
(** time.Parse with a date, a separator and a time of day *)
Definition parse_both (sep : string -> option string) (s : string) : option Z :=
  match read_ymd s with Some (n, r) =>
  match sep r with Some r' =>
  match read_hms r' with Some (c, ns, r'') =>
    if is_end r'' then Some ((n * 86400 + c) * ns_per_sec + ns) else None
  | None => None end | None => None end | None => None end.
(** internal/value.go:2366-2371 parseDatetime *)
Definition parse_datetime (s : string) : option Z :=
  match parse_both (lit "T") s with
  | Some t => Some t
  | None => parse_both skip_space s
  end.
