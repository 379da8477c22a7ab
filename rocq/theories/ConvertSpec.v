(** What CAST should do, independently of the model. *)
From Coq Require Import Ascii String List ZArith QArith Lia Bool SpecFloat.
From Verif Require Import GoBase CalendarModel InstantModel DecModel ValueModel Utf8Model CodecSpec ClockTextSpec JsonDocSpec RowsModel.
Import ListNotations.
Local Open Scope string_scope.
Open Scope Z_scope.

(** Values of a type for which CAST to STRING and back is claimed: an INT64, a BOOL, a NUMERIC
    of at most nine decimals, well-formed text, dates and times of the years 0 to 9999 in whole
    microseconds. *)
Inductive texted : ty -> val -> Prop :=
| tx_int z : in64 z -> texted TInt (VInt z)
| tx_bool b : texted TBool (VBool b)
| tx_num q : nine q -> texted TNum (VNum q)
| tx_str s : text_ok s -> texted TStr (VStr s)
| tx_date t : t mod ns_per_day = 0 -> 0 <= year (day_no t) <= 9999 -> texted TDate (VDate t)
| tx_datetime t : t mod 1000 = 0 -> 0 <= year (day_no t) <= 9999 -> texted TDatetime (VDatetime t)
| tx_time t : t mod 1000 = 0 -> texted TTime (VTime t).
(** An offset from UTC of whole minutes and less than a day, in seconds. *)
Definition whole_minutes (o : Z) : Prop := o mod 60 = 0 /\ Z.abs o < 86400.
(** The first instant of the day of t, the one since midnight. *)
Definition midnight (t : Z) : Z := t - t mod ns_per_day.
(** t is a time of the years 0 to 9999 in whole microseconds. *)
Definition ordinary (t : Z) : Prop := t mod 1000 = 0 /\ 0 <= year (day_no t) <= 9999.
