(** What DATE, TIME and DATETIME texts denote, independently of the model. *)
From Coq Require Import Ascii String List ZArith Lia Bool.
From Verif Require Import GoBase CalendarModel CalendarFacts DecModel.
Local Open Scope string_scope.
Open Scope Z_scope.

Definition two (n : Z) : string := String (digit (n / 10)) (String (digit (n mod 10)) "").
Definition four (n : Z) : string := two (n / 100) ++ two (n mod 100).
(** YYYY-MM-DD *)
Definition ymd (y m d : Z) : string := four y ++ "-" ++ two m ++ "-" ++ two d.
(** HH:MM:SS *)
Definition hms (h mi s : Z) : string := two h ++ ":" ++ two mi ++ ":" ++ two s.
(** The value of a string of decimal digits. *)
Inductive digits_value : string -> Z -> Prop :=
| dv_nil : digits_value "" 0
| dv_snoc : forall s v d, 0 <= d < 10 -> digits_value s v -> digits_value (s ++ String (digit d) "") (10 * v + d).
(** The day s names. *)
Definition names_day (s : string) (n : Z) : Prop :=
  exists y m d, 0 <= y <= 9999 /\ valid_date y m d /\ s = ymd y m d /\ n = days_of y m d.
(** The hour, with one digit or two. *)
Definition names_hour (s : string) (h : Z) : Prop := s = two h \/ (h < 10 /\ s = String (digit h) "").
(** The fraction of a second: nothing, or a point or comma and digits; the digits after
    the ninth do not count. *)
Definition names_fraction (s : string) (ns : Z) : Prop :=
  (s = "" /\ ns = 0) \/
  exists c ds v, (c = "."%char \/ c = ","%char) /\ ds <> "" /\ s = String c ds /\ digits_value ds v /\
    ns = v * 1000000000 / 10 ^ Z.of_nat (String.length ds).
(** The time of day s names: seconds since midnight and nanoseconds. *)
Definition names_clock (s : string) (c ns : Z) : Prop :=
  exists h mi sc a f, 0 <= h <= 23 /\ 0 <= mi <= 59 /\ 0 <= sc <= 59 /\ names_hour a h /\ names_fraction f ns /\
    s = a ++ ":" ++ two mi ++ ":" ++ two sc ++ f /\ c = h * 3600 + mi * 60 + sc.
(** Between the two: a "T" or one or more spaces. *)
Fixpoint blanks (k : nat) : string := match k with O => "" | S j => String " " (blanks j) end.
Definition names_datetime (s : string) (n c ns : Z) : Prop :=
  exists a b sep, names_day a n /\ names_clock b c ns /\ (sep = "T" \/ exists k, sep = blanks (S k)) /\ s = a ++ sep ++ b.
