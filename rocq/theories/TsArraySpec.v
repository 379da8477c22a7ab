(** The parts a TIMESTAMP can be moved by, and what the parts of an INTERVAL are. *)
From Coq Require Import Ascii String List ZArith Lia Bool.
Import ListNotations.
Local Open Scope string_scope.
Open Scope Z_scope.

(** Nanoseconds of each part; a DAY of a TIMESTAMP is 24 hours. *)
Definition timestamp_parts : list (string * Z) :=
  [("MICROSECOND", 1000); ("MILLISECOND", 1000000); ("SECOND", 1000000000);
   ("MINUTE", 60 * 1000000000); ("HOUR", 3600 * 1000000000); ("DAY", 86400 * 1000000000)].

(** An INTERVAL is a number of months, of days and of nanoseconds.  EXTRACT reads one digit
    of the mixed-radix form "Y-M D H:M:S.F" of it, sign included: the whole parts of [size]
    in it, without those that make up a whole part of [next]. *)
Record amount := Amount { in_months : Z; in_days : Z; in_nanos : Z }.
Definition digit (total size : Z) (next : option Z) : Z :=
  match next with
  | None => Z.quot total size
  | Some n => Z.quot (Z.rem total n) size
  end.
Definition second_ns : Z := 1000000000.
Definition interval_digits (a : amount) : list (string * Z) :=
  [("YEAR", digit (in_months a) 12 None); ("MONTH", digit (in_months a) 1 (Some 12));
   ("DAY", in_days a);
   ("HOUR", digit (in_nanos a) (3600 * second_ns) None);
   ("MINUTE", digit (in_nanos a) (60 * second_ns) (Some (3600 * second_ns)));
   ("SECOND", digit (in_nanos a) second_ns (Some (60 * second_ns)));
   ("MILLISECOND", digit (in_nanos a) 1000000 (Some second_ns));
   ("MICROSECOND", digit (in_nanos a) 1000 (Some second_ns))].

(** Written with each field in its range, and with one sign for the months and one for the
    clock. *)
Definition one_sign (l : list Z) : Prop := Forall (fun x => 0 <= x) l \/ Forall (fun x => x <= 0) l.
